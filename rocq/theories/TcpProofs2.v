(** Proofs about the buffers of TCP: outgoing data. *)
From Verif Require Import Base SerialModel KeyModel TcpModel TcpSpec TcpProofs.

Definition bytes_of (l : list obuf) : list Z := concat (map o_bytes l).
Lemma bytes_app : forall a b, bytes_of (a ++ b) = bytes_of a ++ bytes_of b.
Proof. intros. unfold bytes_of. rewrite map_app, concat_app. reflexivity. Qed.
Lemma bytes_cons : forall o l, bytes_of (o :: l) = o_bytes o ++ bytes_of l.
Proof. reflexivity. Qed.
Definition unsent (o : obuf) : Prop := o_sent o = false.
Definition sized (mss : Z) (o : obuf) : Prop := 0 < len (o_bytes o) <= mss.
Fixpoint seqs (isn pos : Z) (l : list obuf) : Prop :=
  match l with
  | [] => True
  | o :: l => o_sent o = true /\ o_seq o = (isn + pos) mod 2 ^ 32 /\ seqs isn (pos + len (o_bytes o)) l
  end.
Lemma seqs_app : forall isn a b pos, seqs isn pos (a ++ b) <-> seqs isn pos a /\ seqs isn (pos + len (bytes_of a)) b.
Proof.
  intros isn. induction a as [|o a IH]; intros b pos; cbn [app seqs].
  - change (bytes_of []) with (@nil Z). change (len []) with 0. rewrite Z.add_0_r. tauto.
  - rewrite IH, bytes_cons, len_app, Z.add_assoc. tauto.
Qed.

(** *** Adding a message *)
Lemma usage_app : forall a b, knot_tcp_outbufs_usage (a ++ b) = knot_tcp_outbufs_usage a + knot_tcp_outbufs_usage b.
Proof. induction a as [|o a IH]; intros b; cbn [app knot_tcp_outbufs_usage fold_right]; [reflexivity|]. fold (knot_tcp_outbufs_usage (a ++ b)). fold (knot_tcp_outbufs_usage a). rewrite IH. lia. Qed.
Lemma add_spec : forall fuel mss pre data acc total, (length data < fuel)%nat -> len pre <= 2 -> 536 <= mss <= 65535 -> total = knot_tcp_outbufs_usage acc mod 2 ^ 64 -> data <> [] \/ pre = [] ->
  exists new, add_loop fuel (fun _ => true) mss pre data acc total = Ok (KNOT_EOK, acc ++ new, knot_tcp_outbufs_usage (acc ++ new) mod 2 ^ 64) /\
    bytes_of new = pre ++ data /\ Forall unsent new /\ Forall (sized mss) new.
Proof.
  induction fuel as [|fuel IH]; intros mss pre data acc total Hf Hp Hm Ht Hn; [lia|]. cbn [add_loop]. destruct data as [|d0 data].
  - destruct Hn as [Hn|Hn]; [congruence|subst pre]. exists []. rewrite app_nil_r, Ht. split; [reflexivity|]. split; [reflexivity|]. split; constructor.
  - set (dd := d0 :: data) in *. cbn [negb]. pose proof (len_nonneg pre). assert (Dp : 0 < len dd) by (unfold dd, len; cbn [length]; lia).
    assert (Eu : u16 (Z.min (len dd + len pre) mss) = Z.min (len dd + len pre) mss) by (unfold u16; apply Z.mod_small; lia). rewrite Eu. cbv zeta.
    set (n := Z.min (len dd + len pre) mss - len pre). assert (Hnn : 0 < n <= len dd) by (unfold n; lia).
    assert ((n <? 0) || (len dd <? n) = false) as -> by lia. set (o := mkob (pre ++ firstn (Z.to_nat n) dd) 0 false).
    assert (Ln : length (firstn (Z.to_nat n) dd) = Z.to_nat n) by (apply firstn_length_le; unfold len in *; lia).
    assert (Lo : len (o_bytes o) = Z.min (len dd + len pre) mss). { unfold o. cbn [o_bytes]. rewrite len_app. unfold len at 2. rewrite Ln. unfold n. lia. }
    destruct (IH mss [] (skipn (Z.to_nat n) dd) (acc ++ [o]) (w64 (total + (OBUF_SIZE + Z.min (len dd + len pre) mss)))) as (new & E & B & U & Z).
    + rewrite skipn_length. unfold len in Hnn. lia.
    + unfold len; cbn; lia.
    + exact Hm.
    + rewrite usage_app. cbn [knot_tcp_outbufs_usage fold_right]. rewrite Lo, Ht. unfold w64. rewrite Z.add_mod_idemp_l by lia. f_equal. lia.
    + right; reflexivity.
    + exists (o :: new). replace (acc ++ o :: new) with ((acc ++ [o]) ++ new) by (rewrite <- app_assoc; reflexivity). split; [exact E|]. split; [|split; [constructor; [reflexivity|exact U]|constructor; [unfold sized; lia|exact Z]]].
      rewrite bytes_cons, B. unfold o. cbn [o_bytes app]. rewrite <- app_assoc, firstn_skipn. reflexivity.
Qed.

(** *** Confirmations *)
Lemma seqno_lower_spec : forall isn p x, -2147483648 <= x - p < 2147483648 ->
  seqno_lower ((isn + p) mod 2 ^ 32) ((isn + x) mod 2 ^ 32) (w32 ((isn + x) mod 2 ^ 32 - 2147483647)) = (p <=? x).
Proof.
  intros isn p x H. unfold seqno_lower, w32. change (2 ^ 32) with 4294967296.
  set (a := (isn + x) mod 4294967296). set (e := (isn + p) mod 4294967296).
  assert (A : 0 <= a < 4294967296) by (apply Z.mod_pos_bound; lia). assert (E : 0 <= e < 4294967296) by (apply Z.mod_pos_bound; lia).
  assert (D : exists k, a - e = x - p + k * 4294967296). { exists ((isn + p) / 4294967296 - (isn + x) / 4294967296). unfold a, e. pose proof (Z.div_mod (isn + x) 4294967296). pose proof (Z.div_mod (isn + p) 4294967296). lia. }
  destruct D as (k & D). clearbody a e.
  assert (M : (a - 2147483647) mod 4294967296 = if 2147483647 <=? a then a - 2147483647 else a + 2147483649).
  { destruct (2147483647 <=? a) eqn:G; [apply Z.mod_small; lia|]. symmetry. apply (Z.mod_unique _ _ (-1)); lia. }
  rewrite M. assert (K : k = -1 \/ k = 0 \/ k = 1) by lia.
  destruct (2147483647 <=? a) eqn:G.
  - assert (a - 2147483647 <=? a = true) as -> by lia. destruct (p <=? x) eqn:P; destruct K as [-> | [-> | ->]]; lia.
  - assert (a + 2147483649 <=? a = false) as -> by lia. destruct (p <=? x) eqn:P; destruct K as [-> | [-> | ->]]; lia.
Qed.
Lemma check_ack_spec : forall isn x p c a, cn_acked c = (isn + x) mod 2 ^ 32 -> cn_ackno c = (isn + p) mod 2 ^ 32 -> 0 <= p - x < 2147483648 -> 0 <= a < 2 ^ 32 ->
  check_ack c a = true <-> exists x', x <= x' <= p /\ a = (isn + x') mod 2 ^ 32.
Proof.
  intros isn x p c a Ea Ep H Ha. unfold check_ack. rewrite Ea, Ep. change (2 ^ 32) with 4294967296 in *.
  set (u := (isn + x) mod 4294967296). set (v := (isn + p) mod 4294967296).
  assert (A : 0 <= u < 4294967296) by (apply Z.mod_pos_bound; lia). assert (E : 0 <= v < 4294967296) by (apply Z.mod_pos_bound; lia).
  assert (Du : isn + x = u + (isn + x) / 4294967296 * 4294967296) by (unfold u; pose proof (Z.div_mod (isn + x) 4294967296); lia).
  assert (Dv : isn + p = v + (isn + p) / 4294967296 * 4294967296) by (unfold v; pose proof (Z.div_mod (isn + p) 4294967296); lia).
  set (ku := (isn + x) / 4294967296) in *. set (kv := (isn + p) / 4294967296) in *. clearbody u v ku kv.
  assert (K : kv = ku \/ kv = ku + 1) by lia. split.
  - intros C. destruct (u <=? v) eqn:G.
    + assert (kv = ku) by lia. exists (x + (a - u)). split; [lia|]. apply (Z.mod_unique _ _ ku); lia.
    + assert (kv = ku + 1) by lia. destruct (a >=? u) eqn:G2.
      * exists (x + (a - u)). split; [lia|]. apply (Z.mod_unique _ _ ku); lia.
      * exists (x + (a - u) + 4294967296). split; [lia|]. apply (Z.mod_unique _ _ (ku + 1)); lia.
  - intros (x' & Hx & Ex). pose proof (Z.div_mod (isn + x') 4294967296 ltac:(lia)) as D. rewrite <- Ex in D. set (k := (isn + x') / 4294967296) in *. clearbody k.
    assert (k = ku \/ k = ku + 1) by lia. destruct (u <=? v) eqn:G; lia.
Qed.
Lemma ack_loop_spec : forall isn x S U pos total, seqs isn pos S -> Forall unsent U -> pos <= x <= pos + len (bytes_of S) -> len (bytes_of S) < 2147483648 -> total = knot_tcp_outbufs_usage (S ++ U) mod 2 ^ 64 ->
  exists D S', S = D ++ S' /\ ack_loop (S ++ U) ((isn + x) mod 2 ^ 32) total = (S' ++ U, knot_tcp_outbufs_usage (S' ++ U) mod 2 ^ 64) /\
    pos + len (bytes_of D) <= x /\ match S' with [] => True | o :: _ => x < pos + len (bytes_of D) + len (o_bytes o) end.
Proof.
  intros isn x. induction S as [|o S IH]; intros U pos total Hs Hu Hx Hl Ht.
  - exists [], []. split; [reflexivity|]. cbn [app] in *. split; [|split; [change (len (bytes_of [])) with 0 in *; lia|exact I]].
    destruct U as [|o U]; cbn [ack_loop]; [rewrite Ht; reflexivity|]. inversion Hu as [|? ? Ho _]; subst. unfold unsent in Ho. rewrite Ho. reflexivity.
  - cbn [seqs] in Hs. destruct Hs as (H1 & H2 & H3). rewrite bytes_cons, len_app in Hx, Hl. pose proof (len_nonneg (o_bytes o)). pose proof (len_nonneg (bytes_of S)).
    cbn [app ack_loop]. rewrite H1. cbn [andb].
    assert (w32 (o_seq o + len (o_bytes o)) = (isn + (pos + len (o_bytes o))) mod 2 ^ 32) as -> by (unfold w32; rewrite H2, Z.add_mod_idemp_l by lia; f_equal; lia).
    rewrite seqno_lower_spec by lia. destruct (pos + len (o_bytes o) <=? x) eqn:E.
    + destruct (IH U (pos + len (o_bytes o)) (w64 (total - (len (o_bytes o) + OBUF_SIZE)))) as (D & S' & -> & Ea & B & C); auto; try lia.
      { rewrite Ht. cbn [app knot_tcp_outbufs_usage fold_right]. fold (knot_tcp_outbufs_usage (S ++ U)). unfold w64. rewrite Zminus_mod_idemp_l. f_equal. lia. }
      exists (o :: D), S'. split; [reflexivity|]. split; [exact Ea|]. rewrite bytes_cons, len_app. split; [lia|]. destruct S'; [exact I|lia].
    + exists [], (o :: S). split; [reflexivity|]. split; [rewrite Ht; reflexivity|]. change (len (bytes_of [])) with 0. split; lia.
Qed.

(** *** Sending *)
Definition seg_of (o : obuf) : Z * list Z := (o_seq o, o_bytes o).
Lemma send_new : forall isn cnt U q, Forall unsent U -> (cnt <= length U)%nat ->
  exists M, send_loop cnt U ((isn + q) mod 2 ^ 32) = (M ++ skipn cnt U, (isn + q + len (bytes_of M)) mod 2 ^ 32, map seg_of M) /\
    seqs isn q M /\ map o_bytes M = map o_bytes (firstn cnt U).
Proof.
  intros isn. induction cnt as [|cnt IH]; intros U q Hu Hc.
  - exists []. cbn [send_loop skipn app map firstn bytes_of concat]. change (len []) with 0. rewrite Z.add_0_r. split; [reflexivity|split; [exact I|reflexivity]].
  - destruct U as [|o U]; [cbn in Hc; lia|]. inversion Hu as [|? ? Ho Hu']; subst. unfold unsent in Ho. cbn [send_loop]. rewrite Ho.
    assert (w32 ((isn + q) mod 2 ^ 32 + len (o_bytes o)) = (isn + (q + len (o_bytes o))) mod 2 ^ 32) as -> by (unfold w32; rewrite Z.add_mod_idemp_l by lia; f_equal; lia).
    destruct (IH U (q + len (o_bytes o)) Hu') as (M & -> & A & B); [cbn in Hc; lia|].
    exists (mkob (o_bytes o) ((isn + q) mod 2 ^ 32) true :: M). split; [|split].
    + cbn [skipn app map]. rewrite bytes_cons, len_app. cbn [o_bytes]. rewrite !Z.add_assoc. reflexivity.
    + cbn [seqs o_sent o_seq o_bytes]. repeat split; auto.
    + cbn [map firstn o_bytes]. rewrite B. reflexivity.
Qed.
(** The buffers after sending, of [A] already sent and [U] new ones *)
Lemma send_spec : forall isn A cnt U pos, seqs isn pos A -> Forall unsent U -> (cnt <= length (A ++ U))%nat ->
  exists M, send_loop cnt (A ++ U) ((isn + (pos + len (bytes_of A))) mod 2 ^ 32) =
      (A ++ M ++ skipn (cnt - length A) U, (isn + (pos + len (bytes_of (A ++ M)))) mod 2 ^ 32, map seg_of (firstn cnt (A ++ M))) /\
    seqs isn pos (A ++ M) /\ map o_bytes M = map o_bytes (firstn (cnt - length A) U).
Proof.
  intros isn. induction A as [|o A IH]; intros cnt U pos Hs Hu Hc.
  - cbn [app length] in *. rewrite Nat.sub_0_r. change (len (bytes_of [])) with 0. rewrite Z.add_0_r.
    destruct (send_new isn cnt U pos Hu Hc) as (M & E & B & C). exists M. rewrite E. rewrite !Z.add_assoc. split; [|split; assumption].
    f_equal. f_equal. assert (length M = cnt). { apply (f_equal (@length _)) in C. rewrite !map_length, firstn_length_le in C; assumption. } rewrite firstn_all2 by lia. reflexivity.
  - destruct cnt as [|cnt].
    + exists []. cbn [send_loop app]. cbn [Nat.sub skipn firstn map]. rewrite app_nil_r. split; [reflexivity|split; [exact Hs|reflexivity]].
    + cbn [seqs] in Hs. destruct Hs as (H1 & H2 & H3). cbn [app length] in *. cbn [send_loop]. rewrite H1.
      destruct (IH cnt U (pos + len (o_bytes o)) H3 Hu ltac:(lia)) as (M & E & B & C).
      rewrite bytes_cons, len_app, (Z.add_assoc pos), E. exists M. cbn [Nat.sub]. split; [|split; [cbn [seqs]; repeat split; assumption|exact C]].
      cbn [firstn map app]. rewrite bytes_cons, len_app, (Z.add_assoc pos). destruct o as [ob os ot]. cbn [o_bytes o_seq o_sent] in *. subst. reflexivity.
Qed.
Lemma count_spec_send : forall l w, (count_send l w <= length l)%nat /\ ((0 < count_send l w)%nat -> len (bytes_of (firstn (count_send l w) l)) <= w).
Proof.
  induction l as [|o l IH]; intros w; cbn [count_send]; [split; cbn; lia|]. destruct (w >=? len (o_bytes o)) eqn:E; [|split; cbn; lia].
  destruct (IH (w - len (o_bytes o))) as (A & B). split; [cbn [length]; lia|]. intros _. cbn [firstn]. rewrite bytes_cons, len_app.
  destruct (count_send l (w - len (o_bytes o))) as [|k] eqn:Ek; [cbn [firstn]; change (len (bytes_of [])) with 0; lia|]. specialize (B ltac:(lia)). lia.
Qed.
Lemma skip_resend : forall l w, skip_sent l w true = ([], l, w).
Proof. intros [|o l] w; cbn [skip_sent]; [reflexivity|]. rewrite andb_false_r. reflexivity. Qed.
Lemma skip_spec : forall isn S U pos w, seqs isn pos S -> Forall unsent U -> skip_sent (S ++ U) w false = (S, U, w - len (bytes_of S)).
Proof.
  intros isn. induction S as [|o S IH]; intros U pos w Hs Hu; cbn [app skip_sent].
  - change (len (bytes_of [])) with 0. rewrite Z.sub_0_r. destruct U as [|o U]; cbn [skip_sent]; [reflexivity|]. inversion Hu as [|? ? Ho _]; subst. unfold unsent in Ho. rewrite Ho. reflexivity.
  - cbn [seqs] in Hs. destruct Hs as (H1 & _ & H3). rewrite H1. cbn [negb andb]. rewrite (IH U _ _ H3 Hu). rewrite bytes_cons, len_app. f_equal. lia.
Qed.
(** Where the segments are *)
Lemma seqs_placed : forall isn L pre post o, seqs isn (len pre) L -> In o L -> exists i, placed isn (pre ++ bytes_of L ++ post) (seg_of o) i /\ len pre <= i /\ i + len (o_bytes o) <= len pre + len (bytes_of L).
Proof.
  intros isn. induction L as [|o L IH]; intros pre post p Hs Hi; [destruct Hi|]. cbn [seqs] in Hs. destruct Hs as (H1 & H2 & H3). rewrite bytes_cons, len_app. pose proof (len_nonneg (bytes_of L)). destruct Hi as [Hi|Hi]; [subst p|].
  - exists (len pre). split; [|lia]. exists pre, (bytes_of L ++ post). split; [cbn [seg_of snd]; rewrite <- app_assoc; reflexivity|]. split; [reflexivity|exact H2].
  - destruct (IH (pre ++ o_bytes o) post p) as (i & A & B & C); [rewrite len_app; exact H3|exact Hi|]. exists i. rewrite len_app in B, C. pose proof (len_nonneg (o_bytes o)). split; [|lia].
    rewrite <- !app_assoc in *. exact A.
Qed.
Lemma seqs_cover : forall isn L pre post j, seqs isn (len pre) L -> len pre <= j < len pre + len (bytes_of L) -> exists o i, In o L /\ placed isn (pre ++ bytes_of L ++ post) (seg_of o) i /\ i <= j < i + len (o_bytes o).
Proof.
  intros isn. induction L as [|o L IH]; intros pre post j Hs Hj; [change (len (bytes_of [])) with 0 in Hj; lia|]. cbn [seqs] in Hs. destruct Hs as (H1 & H2 & H3). rewrite bytes_cons, len_app in Hj.
  destruct (Z_lt_dec j (len pre + len (o_bytes o))) as [L1|L1].
  - exists o, (len pre). split; [left; reflexivity|]. split; [|lia]. exists pre, (bytes_of L ++ post). split; [cbn [seg_of snd]; rewrite bytes_cons, <- app_assoc; reflexivity|]. split; [reflexivity|exact H2].
  - destruct (IH (pre ++ o_bytes o) post j) as (p & i & A & B & C); [rewrite len_app; exact H3|rewrite len_app; lia|]. exists p, i. split; [right; exact A|]. split; [|exact C]. rewrite bytes_cons. rewrite <- !app_assoc in *. exact B.
Qed.
Lemma placed_app : forall isn s t seg i, placed isn s seg i -> placed isn (s ++ t) seg i.
Proof. intros isn s t seg i (b & a & -> & B & C). exists b, (a ++ t). split; [rewrite <- !app_assoc; reflexivity|split; assumption]. Qed.

(** *** The invariant of a connection *)
Record cinv (isn mss : Z) (s : list Z) (c : conn) (total : Z) (trace : list (Z * list Z)) (pre : list Z) (S U : list obuf) (x : Z) : Prop := mkcinv {
  iv_out : cn_out c = S ++ U;
  iv_s : s = pre ++ bytes_of (S ++ U);
  iv_seqs : seqs isn (len pre) S;
  iv_unsent : Forall unsent U;
  iv_sized : Forall (sized mss) (S ++ U);
  iv_ackno : cn_ackno c = (isn + (len pre + len (bytes_of S))) mod 2 ^ 32;
  iv_acked : cn_acked c = (isn + x) mod 2 ^ 32;
  iv_x : len pre <= x <= len pre + len (bytes_of S);
  iv_small : len (bytes_of S) < 2147483648;
  iv_first : match S with [] => True | o :: _ => x < len pre + len (o_bytes o) end;
  iv_trace : Forall (fun g => exists i, placed isn s g i /\ i + len (snd g) <= len pre + len (bytes_of S)) trace;
  iv_cover : all_sent isn s trace (len pre + len (bytes_of S));
  iv_total : total = knot_tcp_outbufs_usage (S ++ U) mod 2 ^ 64
}.
Lemma all_sent_app : forall isn s t trace tr2 p, all_sent isn s trace p -> all_sent isn (s ++ t) (trace ++ tr2) p.
Proof. intros isn s t trace tr2 p H j Hj. destruct (H j Hj) as (g & i & A & B & C). exists g, i. split; [apply in_or_app; left; exact A|]. split; [apply placed_app; exact B|exact C]. Qed.
Lemma sized_bytes : forall mss A B, map o_bytes A = map o_bytes B -> Forall (sized mss) B -> Forall (sized mss) A.
Proof.
  intros mss. induction A as [|a A IH]; intros [|b B] H F; try discriminate; [constructor|]. cbn [map] in H. injection H as H1 H2. inversion F as [|? ? F1 F2]; subst. constructor; [|exact (IH B H2 F2)]. unfold sized in *. rewrite H1. exact F1.
Qed.
Lemma usage_bytes : forall A B, map o_bytes A = map o_bytes B -> knot_tcp_outbufs_usage A = knot_tcp_outbufs_usage B.
Proof.
  induction A as [|a A IH]; intros [|b B] H; try discriminate; [reflexivity|]. cbn [map] in H. injection H as H1 H2. cbn [knot_tcp_outbufs_usage fold_right]. fold (knot_tcp_outbufs_usage A). fold (knot_tcp_outbufs_usage B). rewrite H1, (IH B H2). reflexivity.
Qed.
Lemma bytes_eq : forall A B, map o_bytes A = map o_bytes B -> bytes_of A = bytes_of B.
Proof. intros A B H. unfold bytes_of. rewrite H. reflexivity. Qed.

Definition queued (d : list Z) : list Z := if (0 <? len d) && (len d <=? 65535) then frame d else [].
Lemma reply_inv : forall isn mss s c total trace pre S U x d, 536 <= mss <= 65535 -> cinv isn mss s c total trace pre S U x ->
  exists code c' total' U', knot_tcp_reply_data (fun _ => true) c d mss total = Ok (code, c', total') /\ (code = KNOT_EOK <-> len d <= 65535) /\
    cinv isn mss (s ++ queued d) c' total' trace pre S U' x.
Proof.
  intros isn mss s c total trace pre S U x d Hm [I1 I2 I3 I4 I5 I6 I7 I8 I9 I10 I11 I12 I13]. unfold knot_tcp_reply_data, knot_tcp_outbufs_add, queued.
  destruct c as [ca cb co]. cbn [cn_out cn_ackno cn_acked] in *. subst co. destruct (len d >? 65535) eqn:E.
  - assert ((0 <? len d) && (len d <=? 65535) = false) as -> by lia. cbn [rbind]. eexists _, _, _, U. split; [reflexivity|]. split; [split; [discriminate|lia]|]. rewrite app_nil_r. constructor; cbn [cn_out cn_ackno cn_acked]; auto.
  - destruct d as [|d0 d].
    + change ((0 <? len []) && (len [] <=? 65535)) with false. cbv iota. cbn [length Nat.add add_loop rbind]. eexists _, _, _, U. split; [reflexivity|]. split; [split; [lia|reflexivity]|]. rewrite app_nil_r. constructor; cbn [cn_out cn_ackno cn_acked]; auto.
    + set (dd := d0 :: d) in *. assert (Dp : 0 < len dd) by (unfold dd, len; cbn [length]; lia). assert ((0 <? len dd) && (len dd <=? 65535) = true) as -> by lia.
      destruct (add_spec (length dd + 3)%nat mss [len dd / 256; len dd mod 256] dd (S ++ U) total) as (new & -> & B & Un & Sz); [lia|unfold len; cbn; lia|exact Hm|exact I13|left; discriminate|].
      cbn [rbind]. change ([len dd / 256; len dd mod 256] ++ dd) with (frame dd) in B.
      eexists _, _, _, (U ++ new). split; [reflexivity|]. split; [split; [lia|reflexivity]|]. constructor; cbn [cn_out cn_ackno cn_acked]; auto.
      * rewrite app_assoc. reflexivity.
      * rewrite I2, <- B, app_assoc, !bytes_app, <- !app_assoc. reflexivity.
      * apply Forall_app; split; assumption.
      * rewrite app_assoc. apply Forall_app; split; assumption.
      * eapply Forall_impl; [|exact I11]. intros g (i & A & A2). exists i. split; [apply placed_app; exact A|exact A2].
      * rewrite <- (app_nil_r trace). apply all_sent_app. exact I12.
      * rewrite app_assoc. reflexivity.
Qed.
Lemma confirm_inv : forall isn mss s c total trace pre S U x a c' total', cinv isn mss s c total trace pre S U x -> 0 <= a < 2 ^ 32 -> knot_tcp_recv_ack c a total = (c', total') ->
  exists pre' S' x', cinv isn mss s c' total' trace pre' S' U x' /\ x <= x'.
Proof.
  intros isn mss s c total trace pre S U x a c' total' Iv Ha E. pose proof Iv as [I1 I2 I3 I4 I5 I6 I7 I8 I9 I10 I11 I12 I13]. unfold knot_tcp_recv_ack in E. destruct (check_ack c a) eqn:C.
  2:{ injection E as <- <-. exists pre, S, x. split; [exact Iv|lia]. }
  apply (check_ack_spec isn x (len pre + len (bytes_of S)) c a) in C; auto; [|lia]. destruct C as (x' & Hx & ->).
  destruct (ack_loop_spec isn x' S U (len pre) total) as (D & S' & ES & EL & A & B); auto; try lia.
  rewrite I1, EL in E. injection E as <- <-.
  assert (Eb : bytes_of S = bytes_of D ++ bytes_of S') by (rewrite ES; apply bytes_app).
  assert (El : len (pre ++ bytes_of D) + len (bytes_of S') = len pre + len (bytes_of S)) by (rewrite Eb, !len_app; lia). pose proof (len_nonneg (bytes_of D)).
  exists (pre ++ bytes_of D), S', x'. split; [|lia]. constructor; cbn [cn_out cn_ackno cn_acked]; auto.
  - rewrite I2, !bytes_app, Eb, <- !app_assoc. reflexivity.
  - rewrite ES in I3. apply seqs_app in I3. rewrite len_app. tauto.
  - rewrite ES, <- app_assoc in I5. apply Forall_app in I5. tauto.
  - rewrite El. exact I6.
  - rewrite El, len_app. lia.
  - rewrite len_app in El. lia.
  - rewrite len_app. exact B.
  - rewrite El. exact I11.
  - rewrite El. exact I12.
Qed.
Lemma send_inv : forall isn mss s c total trace pre S U x w r c' segs, cinv isn mss s c total trace pre S U x -> w < 2147483648 -> knot_tcp_send c w r = (c', segs) ->
  (exists S' U', cinv isn mss s c' total (trace ++ segs) pre S' U' x) /\
  Forall (fun g => exists i, placed isn s g i /\ len pre <= i /\ i + len (snd g) <= len pre + w) segs.
Proof.
  intros isn mss s c total trace pre S U x w r c' segs Iv Hw E. pose proof Iv as [I1 I2 I3 I4 I5 I6 I7 I8 I9 I10 I11 I12 I13]. unfold knot_tcp_send in E. rewrite I1 in E.
  (* the part before, the part looked at *)
  assert (K : exists B A wl, skip_sent (S ++ U) w r = (B, A ++ U, wl) /\ S = B ++ A /\ wl = w - len (bytes_of B)).
  { destruct r; [exists [], S, w; rewrite skip_resend; split; [reflexivity|]; split; [reflexivity|change (len (bytes_of [])) with 0; lia]|].
    exists S, [], (w - len (bytes_of S)). rewrite (skip_spec isn S U (len pre) w I3 I4), app_nil_r. repeat split. }
  destruct K as (B & A & wl & Ek & ES & Ew). rewrite Ek in E. pose proof (count_spec_send (A ++ U) wl) as (C1 & C2). set (cnt := count_send (A ++ U) wl) in *. clearbody cnt.
  pose proof I3 as I3'. rewrite ES in I3'. apply seqs_app in I3'. destruct I3' as (SB & SA).
  destruct (send_spec isn A cnt U (len pre + len (bytes_of B)) SA I4 C1) as (M & EM & SM & MM).
  assert (Ea : cn_ackno c = (isn + (len pre + len (bytes_of B) + len (bytes_of A))) mod 2 ^ 32) by (rewrite I6, ES, bytes_app, len_app, (Z.add_assoc (len pre)); reflexivity).
  rewrite Ea, EM in E. injection E as <- <-. set (k := (cnt - length A)%nat) in *.
  assert (EU : U = firstn k U ++ skipn k U) by (symmetry; apply firstn_skipn).
  assert (Eby : bytes_of (S ++ U) = bytes_of (B ++ A ++ M) ++ bytes_of (skipn k U)).
  { transitivity (bytes_of ((B ++ A) ++ firstn k U ++ skipn k U)); [rewrite <- EU, ES; reflexivity|]. rewrite !bytes_app, (bytes_eq M _ MM), <- !app_assoc. reflexivity. }
  assert (Emap : map o_bytes (S ++ U) = map o_bytes ((B ++ A ++ M) ++ skipn k U)).
  { transitivity (map o_bytes ((B ++ A) ++ firstn k U ++ skipn k U)); [rewrite <- EU, ES; reflexivity|]. rewrite !map_app, MM, <- !app_assoc. reflexivity. }
  assert (SBM : seqs isn (len pre) (B ++ A ++ M)) by (apply seqs_app; split; assumption).
  assert (Es : s = pre ++ bytes_of (B ++ A ++ M) ++ bytes_of (skipn k U)) by (rewrite I2, Eby; reflexivity).
  assert (LM : length M = length (firstn k U)) by (apply (f_equal (@length _)) in MM; rewrite !map_length in MM; exact MM).
  (* octets of what is sent *)
  assert (Win : (0 < cnt)%nat -> len (bytes_of B) + len (bytes_of (firstn cnt (A ++ M))) <= w).
  { intros Hc. specialize (C2 Hc). assert (bytes_of (firstn cnt (A ++ M)) = bytes_of (firstn cnt (A ++ U))) as ->; [|lia].
    rewrite !firstn_app. fold k. rewrite !bytes_app. f_equal. rewrite (firstn_all2 M) by (rewrite LM, firstn_length; lia). apply bytes_eq. exact MM. }
  assert (Full : M = [] \/ firstn cnt (A ++ M) = A ++ M).
  { destruct (Nat.eq_dec k 0) as [K0|K0]; [left; rewrite K0 in LM; cbn in LM; destruct M; [reflexivity|discriminate]|right]. apply firstn_all2. rewrite app_length, LM, firstn_length. unfold k in *. lia. }
  assert (Pl : Forall (fun g => exists i, placed isn s g i /\ len pre <= i /\ i + len (snd g) <= len pre + len (bytes_of B) + len (bytes_of (firstn cnt (A ++ M)))) (map seg_of (firstn cnt (A ++ M)))).
  { apply Forall_forall. intros g Hg. apply in_map_iff in Hg. destruct Hg as (o & <- & Ho).
    assert (Sq : seqs isn (len (pre ++ bytes_of B)) (firstn cnt (A ++ M))).
    { rewrite len_app. rewrite <- (firstn_skipn cnt (A ++ M)) in SM. apply seqs_app in SM. tauto. }
    destruct (seqs_placed isn _ _ (bytes_of (skipn cnt (A ++ M)) ++ bytes_of (skipn k U)) o Sq Ho) as (i & P1 & P2 & P3). exists i. rewrite len_app in P2, P3. pose proof (len_nonneg (bytes_of B)). split; [|cbn [seg_of snd]; lia].
    assert (EAM : bytes_of (A ++ M) = bytes_of (firstn cnt (A ++ M)) ++ bytes_of (skipn cnt (A ++ M))) by (rewrite <- bytes_app, firstn_skipn; reflexivity).
    rewrite Es, (bytes_app B), EAM, <- !app_assoc. rewrite <- !app_assoc in P1. exact P1. }
  pose proof (len_nonneg (bytes_of M)) as LMp. pose proof (len_nonneg (bytes_of (skipn cnt (A ++ M)))) as LSp.
  assert (Lfs : len (bytes_of (A ++ M)) = len (bytes_of (firstn cnt (A ++ M))) + len (bytes_of (skipn cnt (A ++ M)))) by (rewrite <- len_app, <- bytes_app, firstn_skipn; reflexivity).
  assert (LS : len (bytes_of S) = len (bytes_of B) + len (bytes_of A)) by (rewrite ES, bytes_app; apply len_app).
  assert (LBAM : len (bytes_of (B ++ A ++ M)) = len (bytes_of B) + len (bytes_of (A ++ M))) by (rewrite bytes_app; apply len_app).
  assert (LAM : len (bytes_of (A ++ M)) = len (bytes_of A) + len (bytes_of M)) by (rewrite bytes_app; apply len_app).
  split.
  - exists (B ++ A ++ M), (skipn k U). constructor; cbn [cn_out cn_ackno cn_acked].
    + rewrite <- !app_assoc. reflexivity.
    + rewrite (bytes_app (B ++ A ++ M)), <- Eby. exact I2.
    + exact SBM.
    + rewrite EU in I4. apply Forall_app in I4. tauto.
    + eapply sized_bytes; [symmetry; exact Emap|exact I5].
    + rewrite LBAM, (Z.add_assoc (len pre)). reflexivity.
    + exact I7.
    + lia.
    + destruct Full as [Full|Full]; [subst M; change (len (bytes_of [])) with 0 in *; lia|]. destruct (Nat.eq_dec cnt 0) as [C0|C0]; [|rewrite Full in Win; specialize (Win ltac:(lia)); lia].
      assert (M = []) as -> by (destruct M; [reflexivity|exfalso; rewrite C0 in Full; cbn [firstn] in Full; destruct A; discriminate]). change (len (bytes_of [])) with 0 in *. lia.
    + rewrite app_assoc, <- ES. destruct S as [|o S]; [|exact I10]. cbn [app]. destruct M as [|m M]; [exact I|]. change (len (bytes_of [])) with 0 in I8.
      assert (Fm : Forall (sized mss) (firstn k U)). { cbn [app] in I5. rewrite EU in I5. apply Forall_app in I5. tauto. }
      apply (sized_bytes mss (m :: M)) in Fm; [|exact MM]. inversion Fm as [|? ? F1 _]; subst. unfold sized in F1. lia.
    + apply Forall_app. split.
      * eapply Forall_impl; [|exact I11]. intros g (i & P1 & P2). exists i. split; [exact P1|lia].
      * eapply Forall_impl; [|exact Pl]. intros g (i & P1 & P2 & P3). exists i. split; [exact P1|lia].
    + intros j Hj. destruct (Z_lt_dec j (len pre + len (bytes_of S))) as [Jl|Jl].
      * destruct (I12 j ltac:(lia)) as (g & i & P1 & P2 & P3). exists g, i. split; [apply in_or_app; left; exact P1|split; assumption].
      * destruct Full as [Full|Full]; [subst M; change (len (bytes_of [])) with 0 in *; lia|].
        assert (Sq : seqs isn (len (pre ++ bytes_of B)) (A ++ M)) by (rewrite len_app; exact SM).
        destruct (seqs_cover isn (A ++ M) (pre ++ bytes_of B) (bytes_of (skipn k U)) j Sq) as (o & i & P1 & P2 & P3); [rewrite len_app; pose proof (len_nonneg (bytes_of A)); lia|].
        exists (seg_of o), i. split; [apply in_or_app; right; rewrite Full; apply in_map; exact P1|]. split; [|exact P3]. rewrite Es, (bytes_app B), <- !app_assoc. rewrite <- !app_assoc in P2. exact P2.
    + rewrite I13. f_equal. apply usage_bytes. exact Emap.
  - destruct cnt as [|cn]; [constructor|]. specialize (Win ltac:(lia)). eapply Forall_impl; [|exact Pl]. intros g (i & P1 & P2 & P3). exists i. split; [exact P1|lia].
Qed.
