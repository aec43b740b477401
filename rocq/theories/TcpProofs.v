(** Proofs about the buffers of TCP: incoming data. *)
From Verif Require Import Base SerialModel KeyModel TcpModel TcpSpec.

Lemma len_app : forall a b, len (a ++ b) = len a + len b.
Proof. intros. unfold len. rewrite app_length. lia. Qed.
Lemma len_nonneg : forall a, 0 <= len a.
Proof. intros. unfold len. lia. Qed.
Lemma len_frame : forall m, len (frame m) = len m + 2.
Proof. intros. unfold frame. rewrite len_app. unfold len. cbn [length]. lia. Qed.
Lemma frame_len : forall m rest, tcp_payload_len (frame m ++ rest) = len m.
Proof. intros. unfold frame. cbn [app tcp_payload_len]. unfold len. pose proof (Z.div_mod (Z.of_nat (length m)) 256). lia. Qed.

(** *** The size of allocations *)
Lemma smear_bit : forall x s j, 0 <= j -> 0 <= s -> Z.testbit (smear x s) j = Z.testbit x j || Z.testbit x (j + s).
Proof. intros. unfold smear. rewrite Z.lor_spec, Z.shiftr_spec by lia. reflexivity. Qed.
(** after smearing by 1, 2, ..., s a bit is set if one of the next 2 s - 1 is *)
Definition smeared (m x d : Z) : Prop := forall j, 0 <= j -> Z.testbit x j = true <-> exists i, j <= i < j + d /\ Z.testbit m i = true.
Lemma smear_step : forall m x d, 0 < d -> smeared m x d -> smeared m (smear x d) (2 * d).
Proof.
  intros m x d Hd H j Hj. rewrite smear_bit by lia. rewrite orb_true_iff, (H j Hj), (H (j + d)) by lia. split.
  - intros [(i & A & B)|(i & A & B)]; exists i; split; auto; lia.
  - intros (i & A & B). destruct (Z_lt_dec i (j + d)); [left|right]; exists i; split; auto; lia.
Qed.
Lemma smeared_ones : forall m x, 0 < m < 2 ^ 64 -> 0 <= x -> smeared m x 64 -> x = Z.ones (Z.log2 m + 1).
Proof.
  intros m x Hm Hx H. apply Z.bits_inj'. intros j Hj. rewrite Z.testbit_ones_nonneg by (pose proof (Z.log2_nonneg m); lia).
  assert (L : Z.log2 m < 64) by (apply Z.log2_lt_pow2; lia).
  destruct (j <? Z.log2 m + 1) eqn:E.
  - apply H; [exact Hj|]. exists (Z.log2 m). split; [lia|]. apply Z.bit_log2. lia.
  - apply not_true_is_false. intros C. apply H in C; [|exact Hj]. destruct C as (i & A & B). rewrite Z.bits_above_log2 in B; [discriminate|lia|lia].
Qed.
Lemma smear_nonneg : forall x s, 0 <= x -> 0 <= smear x s.
Proof. intros. unfold smear. apply Z.lor_nonneg. split; [assumption|apply Z.shiftr_nonneg; assumption]. Qed.
Lemma alloc_size : forall n, 0 < n <= 2 ^ 62 -> buffer_alloc_size n = 2 ^ (Z.log2 (Z.lor (n - 1) 63) + 1).
Proof.
  intros n Hn. unfold buffer_alloc_size. assert (n =? 0 = false) as -> by lia. set (m := Z.lor (n - 1) 63).
  assert (M0 : 0 <= n - 1) by lia.
  assert (Mp : 63 <= m). { unfold m. apply Z.ldiff_le; [apply Z.lor_nonneg; lia|]. apply Z.bits_inj'. intros j Hj. rewrite Z.ldiff_spec, Z.lor_spec, Z.bits_0. destruct (Z.testbit 63 j); [rewrite orb_true_r; reflexivity|reflexivity]. }
  assert (Ml : Z.log2 m < 63).
  { unfold m. rewrite Z.log2_lor by lia. apply Z.max_lub_lt; [|vm_compute; reflexivity]. destruct (Z.eq_dec (n - 1) 0) as [->|]; [vm_compute; reflexivity|]. apply Z.log2_lt_pow2; lia. }
  assert (Mm : m < 2 ^ 63) by (apply Z.log2_lt_pow2; lia).
  assert (S0 : smeared m m 1).
  { intros j Hj. split; [intros B; exists j; split; [lia|exact B]|]. intros (i & A & B). assert (i = j) as -> by lia. exact B. }
  apply smear_step in S0; [|lia]. apply smear_step in S0; [|lia]. apply smear_step in S0; [|lia]. apply smear_step in S0; [|lia]. apply smear_step in S0; [|lia]. apply smear_step in S0; [|lia].
  apply smeared_ones in S0; [|lia|repeat apply smear_nonneg; lia]. change (2 * 1) with 2 in S0. change (2 * 2) with 4 in S0. change (2 * 4) with 8 in S0. change (2 * 8) with 16 in S0. change (2 * 16) with 32 in S0.
  rewrite S0. rewrite Z.ones_equiv. pose proof (Z.log2_nonneg m). assert (P : 2 ^ (Z.log2 m + 1) <= 2 ^ 63) by (apply Z.pow_le_mono_r; lia).
  assert (0 < 2 ^ (Z.log2 m + 1)) by (apply Z.pow_pos_nonneg; lia). unfold w64. rewrite Z.mod_small; [lia|]. change (2 ^ 64) with (2 * 2 ^ 63). lia.
Qed.
Lemma alloc_bounds : forall n, 0 < n <= 2 ^ 62 -> n <= buffer_alloc_size n /\ 64 <= buffer_alloc_size n <= 2 ^ 63.
Proof.
  intros n Hn. rewrite alloc_size by exact Hn. assert (M0 : 0 <= Z.lor (n - 1) 63) by (apply Z.lor_nonneg; lia).
  assert (A : n - 1 <= Z.lor (n - 1) 63). { apply Z.ldiff_le; [exact M0|]. apply Z.bits_inj'. intros j Hj. rewrite Z.ldiff_spec, Z.lor_spec, Z.bits_0. destruct (Z.testbit (n - 1) j); reflexivity. }
  assert (B : 63 <= Z.lor (n - 1) 63). { apply Z.ldiff_le; [exact M0|]. apply Z.bits_inj'. intros j Hj. rewrite Z.ldiff_spec, Z.lor_spec, Z.bits_0. destruct (Z.testbit 63 j); [rewrite orb_true_r; reflexivity|reflexivity]. }
  pose proof (Z.log2_spec (Z.lor (n - 1) 63) ltac:(lia)) as (_ & L). replace (Z.succ (Z.log2 (Z.lor (n - 1) 63))) with (Z.log2 (Z.lor (n - 1) 63) + 1) in L by lia.
  split; [lia|]. split; [lia|]. apply Z.pow_le_mono_r; [lia|]. rewrite Z.log2_lor by lia. change (Z.log2 63) with 5.
  assert (Z.log2 (n - 1) <= 62). { destruct (Z.eq_dec (n - 1) 0) as [->|]; [cbn; lia|]. apply Z.lt_succ_r. apply Z.log2_lt_pow2; lia. } lia.
Qed.
Lemma alloc_mono : forall a b, 0 < a -> a <= b -> b <= 2 ^ 62 -> buffer_alloc_size a <= buffer_alloc_size b.
Proof.
  intros a b Ha Hab Hb. rewrite !alloc_size by lia. apply Z.pow_le_mono_r; [lia|]. rewrite !Z.log2_lor by lia. pose proof (Z.log2_le_mono (a - 1) (b - 1) ltac:(lia)). lia.
Qed.
Lemma alloc_zero : buffer_alloc_size 0 = 0.
Proof. reflexivity. Qed.

(** *** Whole messages *)
Definition total_len (ms : list (list Z)) : Z := fold_right (fun m a => len m + a) 0 ms.
Lemma total_nonneg : forall ms, 0 <= total_len ms.
Proof. induction ms as [|m ms IH]; cbn [total_len fold_right]; [lia|]. fold (total_len ms). pose proof (len_nonneg m). lia. Qed.
Lemma payload_le : forall d, octets d -> 0 <= tcp_payload_len d <= 65535.
Proof. intros d H. destruct d as [|a [|b d]]; cbn [tcp_payload_len]; try lia. inversion H as [|? ? A B]; subst. inversion B as [|? ? C D]; subst. unfold octet in *. lia. Qed.
Lemma incomplete_iff : forall d, incomplete d <-> (len d <? 2) || (len d - 2 <? tcp_payload_len d) = true.
Proof.
  intros d. destruct d as [|a [|b d]]; cbn [incomplete tcp_payload_len]; [split; [reflexivity|trivial]|split; [reflexivity|trivial]|].
  unfold len. cbn [length]. split; intros H; lia.
Qed.
Lemma split_exists : forall n d, (length d <= n)%nat -> octets d -> exists ms rest, d = stream ms ++ rest /\ incomplete rest /\ Forall is_message ms /\ octets rest.
Proof.
  induction n as [|n IH]; intros d Hn Ho.
  - destruct d; [|cbn in Hn; lia]. exists [], []. split; [reflexivity|]. split; [exact I|]. split; [constructor|constructor].
  - destruct d as [|a [|b d]].
    + exists [], []. split; [reflexivity|]. split; [exact I|]. split; [constructor|constructor].
    + exists [], [a]. split; [reflexivity|]. split; [exact I|]. split; [constructor|exact Ho].
    + pose proof (payload_le _ Ho) as Hp. cbn [tcp_payload_len] in Hp. inversion Ho as [|? ? Oa Ob]; subst. inversion Ob as [|? ? Ob' Od]; subst. unfold octet in Oa, Ob'.
      destruct (Z_lt_dec (len d) (a * 256 + b)) as [L|L].
      * exists [], (a :: b :: d). split; [reflexivity|]. split; [exact L|]. split; [constructor|exact Ho].
      * set (k := Z.to_nat (a * 256 + b)). assert (Hk : (k <= length d)%nat) by (unfold k, len in *; lia).
        assert (O2 : octets (skipn k d)). { unfold octets in *. rewrite <- (firstn_skipn k d) in Od. apply Forall_app in Od. tauto. }
        assert (O1 : octets (firstn k d)). { unfold octets in *. rewrite <- (firstn_skipn k d) in Od. apply Forall_app in Od. tauto. }
        destruct (IH (skipn k d)) as (ms & rest & E & A & B & C); [rewrite skipn_length; cbn in Hn; lia|exact O2|].
        assert (Lk : length (firstn k d) = k) by (apply firstn_length_le; exact Hk).
        exists (firstn k d :: ms), rest. split; [|split; [exact A|split; [constructor; [split; [exact O1|rewrite Lk; unfold k; lia]|exact B]|exact C]]].
        unfold stream. cbn [flat_map]. fold (stream ms). rewrite <- app_assoc, <- E. unfold frame. rewrite Lk. cbn [app].
        replace (Z.of_nat k / 256) with a by (unfold k; lia). replace (Z.of_nat k mod 256) with b by (unfold k; lia). rewrite firstn_skipn. reflexivity.
Qed.
Lemma inc_frame : forall m d, iov_inc (frame m ++ d) (len m + 2) = Ok d.
Proof.
  intros m d. unfold iov_inc. rewrite len_app, len_frame. pose proof (len_nonneg d). assert (len m + 2 <=? len m + 2 + len d = true) as -> by lia.
  f_equal. rewrite skipn_app. assert (L : length (frame m) = Z.to_nat (len m + 2)) by (pose proof (len_frame m); unfold len in *; lia).
  rewrite <- L, skipn_all, Nat.sub_diag. reflexivity.
Qed.
Lemma count_spec : forall ms rest fuel cnt bs, (length (stream ms ++ rest) < fuel)%nat -> incomplete rest ->
  count_loop fuel (stream ms ++ rest) cnt bs = Ok (cnt + Z.of_nat (length ms), bs + total_len ms, rest).
Proof.
  induction ms as [|m ms IH]; intros rest fuel cnt bs Hf Hi; (destruct fuel as [|fuel]; [lia|]); cbn [count_loop].
  - cbn [stream flat_map app]. apply incomplete_iff in Hi. assert ((len rest >=? 2) && (tcp_payload_len rest <=? len rest - 2) = false) as -> by lia.
    cbn [length total_len fold_right]. rewrite !Z.add_0_r. reflexivity.
  - unfold stream in *. cbn [flat_map] in *. rewrite <- app_assoc in *. fold (stream ms) in *. rewrite frame_len, inc_frame.
    assert ((len (frame m ++ stream ms ++ rest) >=? 2) && (len m <=? len (frame m ++ stream ms ++ rest) - 2) = true) as ->.
    { rewrite len_app, len_frame. pose proof (len_nonneg m). pose proof (len_nonneg (stream ms ++ rest)). lia. }
    cbn [rbind]. rewrite IH; [|rewrite app_length in Hf; assert (length (frame m) = Z.to_nat (len m + 2)) by (pose proof (len_frame m); unfold len in *; lia); pose proof (len_nonneg m); lia|exact Hi].
    cbn [total_len fold_right length]. fold (total_len ms). assert (cnt + 1 + Z.of_nat (length ms) = cnt + Z.of_nat (S (length ms))) as -> by lia. rewrite Z.add_assoc. reflexivity.
Qed.
Lemma take_spec : forall ab ms rest room acc, (ab = true -> total_len ms <= room) ->
  take_loop ab (length ms) (stream ms ++ rest) room acc = Ok (acc ++ ms, rest).
Proof.
  intros ab. induction ms as [|m ms IH]; intros rest room acc Hr; cbn [length take_loop].
  - rewrite app_nil_r. reflexivity.
  - unfold stream. cbn [flat_map]. rewrite <- app_assoc. fold (stream ms). rewrite frame_len.
    unfold frame. cbn [app]. unfold iov_inc at 1. assert (2 <=? len (Z.of_nat (length m) / 256 :: Z.of_nat (length m) mod 256 :: m ++ stream ms ++ rest) = true) as -> by (unfold len; cbn [length]; lia).
    cbn [rbind]. change (Z.to_nat 2) with 2%nat. cbn [skipn]. unfold iov_inc. rewrite len_app. pose proof (len_nonneg (stream ms ++ rest)).
    assert (len m <=? len m + len (stream ms ++ rest) = true) as -> by lia. cbn [rbind].
    assert (Lm : Z.to_nat (len m) = length m) by (unfold len; lia). rewrite Lm. rewrite firstn_app, firstn_all, Nat.sub_diag. cbn [firstn]. rewrite app_nil_r.
    rewrite skipn_app, skipn_all, Nat.sub_diag. cbn [skipn app].
    cbn [total_len fold_right] in Hr. fold (total_len ms) in Hr. pose proof (total_nonneg ms). destruct ab.
    + unfold copy_out. specialize (Hr eq_refl). assert (len m <=? room = true) as -> by lia. cbn [rbind]. rewrite IH by (intros _; lia). rewrite <- app_assoc. reflexivity.
    + cbn [rbind]. rewrite IH by discriminate. rewrite <- app_assoc. reflexivity.
Qed.

(** *** One update *)
(** What the buffer holds between updates *)
Definition held (l : list Z) : Prop := (incomplete l \/ l = [0; 0]) /\ octets l.
Definition buf_ok (b : inbuf) : Prop := held (ib_bytes b) /\ ib_cap b = buffer_alloc_size (len (ib_bytes b)).
Lemma held_small : forall l, held l -> 0 <= len l <= 65537.
Proof.
  intros l (H & O). pose proof (payload_le l O) as P. pose proof (len_nonneg l). destruct H as [H|H]; [|subst; unfold len; cbn; lia].
  apply incomplete_iff in H. lia.
Qed.
Lemma octets_app : forall a b, octets (a ++ b) <-> octets a /\ octets b.
Proof. intros. unfold octets. apply Forall_app. Qed.

Definition upd_post (al1 al2 : bool) (b : inbuf) (data : list Z) (total : Z) (r : res (Z * inbuf * list (list Z) * Z)) : Prop :=
  match r with
  | Ok (code, b', ms, total') =>
    (code = KNOT_EOK /\ buf_ok b' /\ received (ib_bytes b ++ data) ms (ib_bytes b') /\
     total' = (total + ib_cap b' - ib_cap b) mod 2 ^ 64) \/
    (code = KNOT_ENOMEM /\ (al1 = false \/ al2 = false) /\ ms = [])
  | _ => False
  end.
(** The end of the function: the rest is stored *)
Lemma store_spec : forall al1 al2 b data ms total s total0 cap0, octets data -> len data < 2 ^ 48 ->
  ib_cap b = buffer_alloc_size (len (ib_bytes b)) -> octets (ib_bytes b) -> len (ib_bytes b) <= 65537 ->
  (ib_bytes b ++ data = [] \/ incomplete (ib_bytes b ++ data)) -> s = stream ms ++ ib_bytes b ++ data -> Forall is_message ms ->
  0 <= total < 2 ^ 64 -> total = (total0 + ib_cap b - cap0) mod 2 ^ 64 ->
  match (match data with
      | [] => Ok (KNOT_EOK, b, ms, total)
      | _ =>
        let bl := len (ib_bytes b) in
        let original := buffer_alloc_size bl in
        let bufalloc := buffer_alloc_size (bl + len data) in
        if original <? bufalloc then
          if negb al2 then Ok (KNOT_ENOMEM, mkib (ib_bytes b) 0, [], total)
          else let total := w64 (total + (bufalloc - original)) in
               if bl + len data <=? bufalloc then Ok (KNOT_EOK, mkib (ib_bytes b ++ data) bufalloc, ms, total) else UB
        else if bl + len data <=? ib_cap b then Ok (KNOT_EOK, mkib (ib_bytes b ++ data) (ib_cap b), ms, total) else UB
      end : res (Z * inbuf * list (list Z) * Z)) with
  | Ok (code, b', ms', total') =>
    (code = KNOT_EOK /\ buf_ok b' /\ received s ms' (ib_bytes b') /\ total' = (total0 + ib_cap b' - cap0) mod 2 ^ 64) \/
    (code = KNOT_ENOMEM /\ (al1 = false \/ al2 = false) /\ ms' = [])
  | _ => False
  end.
Proof.
  intros al1 al2 b data ms total s total0 cap0 Od Ld Hc Ob Lb Hi Es Hm Ht Et. destruct data as [|d0 data].
  - left. split; [reflexivity|]. split; [split; [split; [|exact Ob]|exact Hc]|]. { left. rewrite app_nil_r in Hi. destruct Hi as [->|Hi]; [exact I|exact Hi]. }
    split; [split; [rewrite app_nil_r in Es; exact Es|exact Hm]|exact Et].
  - cbv zeta. set (dd := d0 :: data) in *. assert (Dp : 0 < len dd) by (unfold dd, len; cbn [length]; lia). pose proof (len_nonneg (ib_bytes b)) as Bp.
    pose proof (alloc_bounds (len (ib_bytes b) + len dd) ltac:(lia)) as (A1 & A2). rewrite <- len_app in *.
    assert (Hh : held (ib_bytes b ++ dd)). { split; [left|apply octets_app; split; assumption]. destruct Hi as [Hi|Hi]; [|exact Hi]. rewrite Hi. exact I. }
    destruct (buffer_alloc_size (len (ib_bytes b)) <? buffer_alloc_size (len (ib_bytes b ++ dd))) eqn:Eg.
    + destruct al2; cbn [negb]; [|right; split; [reflexivity|split; [right; reflexivity|reflexivity]]].
      assert (len (ib_bytes b ++ dd) <=? buffer_alloc_size (len (ib_bytes b ++ dd)) = true) as -> by lia. left.
      split; [reflexivity|]. split; [split; [exact Hh|reflexivity]|]. split; [split; [exact Es|exact Hm]|]. cbn [ib_cap ib_bytes]. rewrite <- Hc, Et. unfold w64.
      rewrite Z.add_mod_idemp_l by lia. f_equal. lia.
    + assert (E : buffer_alloc_size (len (ib_bytes b)) = buffer_alloc_size (len (ib_bytes b ++ dd))).
      { destruct (Z.eq_dec (len (ib_bytes b)) 0) as [Z0|Z0]; [rewrite Z0 in *; rewrite alloc_zero in *; lia|].
        pose proof (alloc_mono (len (ib_bytes b)) (len (ib_bytes b ++ dd)) ltac:(lia) ltac:(rewrite len_app; lia) ltac:(rewrite len_app; lia)). lia. }
      rewrite Hc, E. assert (len (ib_bytes b ++ dd) <=? buffer_alloc_size (len (ib_bytes b ++ dd)) = true) as -> by lia. left.
      split; [reflexivity|]. split; [split; [exact Hh|reflexivity]|]. split; [split; [exact Es|exact Hm]|]. cbn [ib_cap]. rewrite Et, Hc, E. reflexivity.
Qed.

Lemma prefix_step : forall b d0 rest, buf_ok b -> octets (d0 :: rest) ->
  exists b1 data1,
    (if len (ib_bytes b) =? 1 then
       if (ib_cap b >=? 2) then Ok (mkib (ib_bytes b ++ [d0]) (ib_cap b), rest) else UB
     else Ok (b, d0 :: rest)) = Ok (b1, data1) /\
    buf_ok b1 /\ ib_cap b1 = ib_cap b /\ octets data1 /\ len data1 <= len (d0 :: rest) /\ len (ib_bytes b1) <> 1 /\
    ib_bytes b1 ++ data1 = ib_bytes b ++ d0 :: rest.
Proof.
  intros b d0 rest ((Hh & Ob) & Hc) Od. destruct (len (ib_bytes b) =? 1) eqn:E1.
  - destruct (ib_bytes b) as [|h [|? ?]] eqn:Eb; [discriminate| |unfold len in E1; cbn [length] in E1; lia].
    change (buffer_alloc_size (len [h])) with 64 in Hc. rewrite Hc. change (64 >=? 2) with true. cbv iota.
    inversion Ob as [|? ? Oh _]; subst. inversion Od as [|? ? Od0 Or]; subst. unfold octet in *.
    exists (mkib [h; d0] 64), rest. split; [reflexivity|]. cbn [ib_bytes ib_cap]. repeat match goal with |- _ /\ _ => split end.
    + split; [split|reflexivity]; cbn [ib_bytes].
      * destruct (Z.eq_dec (h * 256 + d0) 0); [right; f_equal; [lia|f_equal; lia]|left; cbn [incomplete length Z.of_nat]; lia].
      * repeat constructor; lia.
    + reflexivity.
    + exact Or.
    + unfold len. cbn [length]. lia.
    + unfold len. cbn [length]. lia.
    + reflexivity.
  - exists b, (d0 :: rest). split; [reflexivity|]. split; [split; [split|]; assumption|]. repeat match goal with |- _ /\ _ => split end; auto; lia.
Qed.
Lemma upd_spec : forall al1 al2 ab b data total, buf_ok b -> octets data -> len data < 2 ^ 48 -> 0 <= total < 2 ^ 64 ->
  upd_post al1 al2 b data total (knot_tcp_inbufs_upd al1 al2 ab b data total).
Proof.
  intros al1 al2 ab b data total Hb Od Ld Ht. unfold knot_tcp_inbufs_upd, upd_post. destruct data as [|d0 drest].
  - left. split; [reflexivity|]. split; [exact Hb|]. split; [split; [rewrite app_nil_r; reflexivity|constructor]|]. replace (total + ib_cap b - ib_cap b) with total by lia. rewrite Z.mod_small; lia.
  - destruct (prefix_step b d0 drest Hb Od) as (b1 & data1 & -> & ((Hh & Ob) & Hc) & Ec & O1 & L1 & N1 & Es). cbn [rbind].
    rewrite <- Es, <- Ec. clear Es Od Hb. assert (Ld1 : len data1 < 2 ^ 48) by lia. clear Ld L1 Ec d0 drest b.
    pose proof (held_small _ (conj Hh Ob)) as Hs.
    assert (T0 : total = (total + ib_cap b1 - ib_cap b1) mod 2 ^ 64) by (replace (total + ib_cap b1 - ib_cap b1) with total by lia; rewrite Z.mod_small; lia).
    destruct data1 as [|x data2].
    + left. split; [reflexivity|]. split; [split; [split; assumption|exact Hc]|]. split; [split; [rewrite app_nil_r; reflexivity|constructor]|exact T0].
    + cbv zeta. set (data := x :: data2) in *.
      assert (Rd : readable b1 = true).
      { unfold readable. rewrite Hc. destruct (Z.eq_dec (len (ib_bytes b1)) 0) as [Z0|Z0]; [rewrite Z0; reflexivity|]. pose proof (alloc_bounds (len (ib_bytes b1)) ltac:(lia)). lia. }
      rewrite Rd. cbn [negb].
      destruct (len (ib_bytes b1) >=? 2) eqn:E2.
      * pose proof (payload_le _ Ob) as Hp.
        assert (Hoff : 0 <= tcp_payload_len (ib_bytes b1) - (len (ib_bytes b1) - 2) <= 65535).
        { destruct Hh as [Hh|Hh]; [apply incomplete_iff in Hh; lia|rewrite Hh; vm_compute; split; discriminate]. }
        assert (w64 (tcp_payload_len (ib_bytes b1) - (len (ib_bytes b1) - 2)) = tcp_payload_len (ib_bytes b1) - (len (ib_bytes b1) - 2)) as -> by (unfold w64; apply Z.mod_small; lia).
        set (ml := tcp_payload_len (ib_bytes b1)) in *. set (off := ml - (len (ib_bytes b1) - 2)) in *.
        destruct (len data >=? off) eqn:E3.
        -- assert (I : iov_inc data off = Ok (skipn (Z.to_nat off) data)) by (unfold iov_inc; assert (off <=? len data = true) as -> by lia; reflexivity).
           rewrite I. cbn [rbind]. set (du := skipn (Z.to_nat off) data) in *.
           assert (Eod : data = firstn (Z.to_nat off) data ++ du) by (unfold du; symmetry; apply firstn_skipn).
           assert (Odu : octets du /\ octets (firstn (Z.to_nat off) data)). { rewrite Eod in O1. apply octets_app in O1. tauto. }
           destruct Odu as (Odu & Ofst).
           assert (Ldu : (length du <= length data)%nat) by (unfold du; rewrite skipn_length; lia).
           destruct (split_exists (length du) du (le_n _) Odu) as (ms & rest & Ed & Hi & Hm & Or).
           assert (Cn : count_loop (S (length data)) du 1 ml = Ok (1 + Z.of_nat (length ms), ml + total_len ms, rest)) by (rewrite Ed; apply count_spec; [rewrite <- Ed; lia|exact Hi]).
           rewrite Cn. cbn [rbind]. assert (1 + Z.of_nat (length ms) >? 0 = true) as -> by lia. cbn [andb].
           destruct al1; cbn [negb]; [|right; split; [reflexivity|split; [left; reflexivity|reflexivity]]].
           set (m := skipn 2 (ib_bytes b1) ++ firstn (Z.to_nat off) data).
           assert (Lm : len m = ml).
           { unfold m. rewrite len_app. unfold len at 1 2. rewrite skipn_length, firstn_length. unfold len in *. unfold off in *. lia. }
           assert (Em : frame m = ib_bytes b1 ++ firstn (Z.to_nat off) data).
           { unfold frame. fold (len m). rewrite Lm. unfold m, ml. destruct (ib_bytes b1) as [|h [|l bs]]; [discriminate|unfold len in E2; cbn in E2; lia|].
             cbn [tcp_payload_len skipn app]. inversion Ob as [|? ? Oh Ob2]; subst. inversion Ob2 as [|? ? Ol _]; subst. unfold octet in *.
             replace ((h * 256 + l) / 256) with h by lia. replace ((h * 256 + l) mod 256) with l by lia. reflexivity. }
           assert (Mm : is_message m).
           { split; [|fold (len m); lia]. unfold m. apply octets_app. split; [|exact Ofst]. rewrite <- (firstn_skipn 2 (ib_bytes b1)) in Ob. apply octets_app in Ob. tauto. }
           pose proof (total_nonneg ms).
           assert (Cp : copy_out (if ab then ml + total_len ms else ml) m = Ok ((if ab then ml + total_len ms else ml) - ml)).
           { unfold copy_out. rewrite Lm. assert (ml <=? (if ab then ml + total_len ms else ml) = true) as -> by (destruct ab; lia). reflexivity. }
           rewrite Cp. cbn [rbind length]. assert ((Z.to_nat (1 + Z.of_nat (length ms)) - 1 = length ms)%nat) as -> by lia.
           rewrite Ed, take_spec by (intros ->; lia). cbn [rbind].
           pose proof (store_spec true al2 ib_empty rest ([m] ++ ms) (w64 (total - buffer_alloc_size (len (ib_bytes b1)))) (ib_bytes b1 ++ data) total (ib_cap b1)) as St.
           cbv zeta in St. apply St; clear St; cbn [ib_bytes ib_empty ib_cap app].
           ++ exact Or.
           ++ assert (len du = len (stream ms) + len rest) by (rewrite Ed; apply len_app). pose proof (len_nonneg (stream ms)). unfold len in *. lia.
           ++ reflexivity.
           ++ constructor.
           ++ unfold len; cbn; lia.
           ++ right. exact Hi.
           ++ rewrite Eod, Ed. unfold stream. cbn [flat_map]. rewrite Em. rewrite <- !app_assoc. reflexivity.
           ++ constructor; assumption.
           ++ unfold w64. apply Z.mod_pos_bound. lia.
           ++ unfold w64. rewrite Hc. f_equal. lia.
        -- cbn [rbind]. change (0 >? 0) with false. cbn [andb rbind].
           pose proof (store_spec al1 al2 b1 data [] total (ib_bytes b1 ++ data) total (ib_cap b1)) as St. cbv zeta in St. apply St; clear St; auto; try lia.
           right. apply incomplete_iff. rewrite len_app. assert (tcp_payload_len (ib_bytes b1 ++ data) = ml) as ->.
           { unfold ml. destruct (ib_bytes b1) as [|h [|l bs]]; [discriminate|unfold len in E2; cbn in E2; lia|reflexivity]. }
           pose proof (len_nonneg data). unfold off in *. lia.
      * assert (Eb : ib_bytes b1 = []). { destruct (ib_bytes b1) as [|h [|l bs]]; [reflexivity|unfold len in N1; cbn in N1; lia|unfold len in E2; cbn [length] in E2; lia]. }
        destruct (split_exists (length data) data (le_n _) O1) as (ms & rest & Ed & Hi & Hm & Or).
        assert (Cn : count_loop (S (length data)) data 0 0 = Ok (0 + Z.of_nat (length ms), 0 + total_len ms, rest)).
        { rewrite Ed at 2. apply count_spec; [rewrite <- Ed; lia|exact Hi]. }
        rewrite Cn. cbn [rbind]. rewrite !Z.add_0_l.
        assert (Lr : len rest <= len data). { rewrite Ed, len_app. pose proof (len_nonneg (stream ms)). lia. }
        destruct ms as [|m0 ms].
        -- cbn [length Z.of_nat]. change (0 >? 0) with false. cbn [andb rbind].
           pose proof (store_spec al1 al2 b1 data [] total (ib_bytes b1 ++ data) total (ib_cap b1)) as St. cbv zeta in St. apply St; clear St; auto; try lia.
           right. rewrite Eb, Ed. exact Hi.
        -- assert (Z.of_nat (length (m0 :: ms)) >? 0 = true) as -> by (cbn [length]; lia). cbn [andb].
           destruct al1; cbn [negb]; [|right; split; [reflexivity|split; [left; reflexivity|reflexivity]]].
           cbn [rbind]. change (length (@nil (list Z))) with 0%nat. rewrite Nat.sub_0_r, Nat2Z.id.
           assert (Tk : forall room, (ab = true -> total_len (m0 :: ms) <= room) -> take_loop ab (length (m0 :: ms)) data room [] = Ok ([] ++ m0 :: ms, rest)) by (intros room Hroom; rewrite Ed; apply take_spec; exact Hroom).
           rewrite Tk by (intros ->; lia). cbn [rbind].
           pose proof (store_spec true al2 b1 rest ([] ++ m0 :: ms) total (ib_bytes b1 ++ data) total (ib_cap b1)) as St. cbv zeta in St. apply St; clear St; auto; try lia.
           ++ right. rewrite Eb. exact Hi.
           ++ rewrite Eb, Ed. reflexivity.
Qed.

(** *** A whole connection *)
Lemma stream_app : forall a b, stream (a ++ b) = stream a ++ stream b.
Proof. intros. unfold stream. apply flat_map_app. Qed.
Lemma receive_spec : forall al ab segs b total msgs, buf_ok b -> Forall octets segs -> Forall (fun s => len s < 2 ^ 48) segs -> 0 <= total < 2 ^ 64 -> Forall is_message msgs ->
  match receive al ab b total segs msgs with
  | Ok (code, b', ms, total') =>
    (code = KNOT_EOK /\ buf_ok b' /\ stream msgs ++ ib_bytes b ++ concat segs = stream ms ++ ib_bytes b' /\ Forall is_message ms /\
     total' = (total + ib_cap b' - ib_cap b) mod 2 ^ 64) \/
    (code = KNOT_ENOMEM /\ (exists i, (i < length segs)%nat /\ (fst (al i) = false \/ snd (al i) = false)) /\
     Forall is_message ms /\ exists rest, stream msgs ++ ib_bytes b ++ concat segs = stream ms ++ rest)
  | _ => False
  end.
Proof.
  intros al ab. induction segs as [|s segs IH]; intros b total msgs Hb Ho Hl Ht Hm; cbn [receive].
  - left. split; [reflexivity|]. split; [exact Hb|]. cbn [concat]. rewrite app_nil_r. split; [reflexivity|]. split; [exact Hm|]. replace (total + ib_cap b - ib_cap b) with total by lia. rewrite Z.mod_small; lia.
  - inversion Ho as [|? ? Os Oss]; subst. inversion Hl as [|? ? Ls Lss]; subst.
    pose proof (upd_spec (fst (al (length segs))) (snd (al (length segs))) ab b s total Hb Os Ls Ht) as U. unfold upd_post in U.
    destruct (knot_tcp_inbufs_upd (fst (al (length segs))) (snd (al (length segs))) ab b s total) as [[[[code b1] m] t1]|?| |]; try contradiction. cbn [rbind].
    destruct U as [(-> & Hb1 & (Er & Hm1) & Et)|(-> & Hal & ->)].
    + change (KNOT_EOK =? KNOT_EOK) with true. cbv iota.
      assert (Ht1 : 0 <= t1 < 2 ^ 64) by (rewrite Et; apply Z.mod_pos_bound; lia).
      assert (Hmm : Forall is_message (msgs ++ m)) by (apply Forall_app; split; assumption).
      specialize (IH b1 t1 (msgs ++ m) Hb1 Oss Lss Ht1 Hmm).
      assert (Est : stream msgs ++ ib_bytes b ++ concat (s :: segs) = stream (msgs ++ m) ++ ib_bytes b1 ++ concat segs).
      { cbn [concat]. rewrite stream_app. rewrite (app_assoc (ib_bytes b)), Er. rewrite <- !app_assoc. reflexivity. }
      rewrite Est. destruct (receive al ab b1 t1 segs (msgs ++ m)) as [[[[code b'] ms] t']|?| |]; try contradiction.
      destruct IH as [(A & B & C & D & E)|(A & (i & Hi & B) & C)].
      * left. split; [exact A|]. split; [exact B|]. split; [exact C|]. split; [exact D|]. rewrite E, Et.
        replace ((total + ib_cap b1 - ib_cap b) mod 2 ^ 64 + ib_cap b' - ib_cap b1) with ((total + ib_cap b1 - ib_cap b) mod 2 ^ 64 + (ib_cap b' - ib_cap b1)) by lia.
        rewrite Z.add_mod_idemp_l by lia. f_equal. lia.
      * right. split; [exact A|]. split; [exists i; split; [cbn [length]; lia|exact B]|exact C].
    + change (KNOT_ENOMEM =? KNOT_EOK) with false. cbv iota. right. split; [reflexivity|]. split; [exists (length segs); split; [cbn [length]; lia|exact Hal]|].
      rewrite app_nil_r. split; [exact Hm|]. eexists. reflexivity.
Qed.

(** The messages in a stream are determined by it. *)
Lemma frame_inj : forall m m' a b, frame m ++ a = frame m' ++ b -> m = m' /\ a = b.
Proof.
  intros m m' a b H. pose proof (frame_len m a) as A. rewrite H, frame_len in A. unfold frame in H. cbn [app] in H. injection H as _ _ H.
  assert (L : length m = length m') by (unfold len in A; lia).
  assert (E : firstn (length m) (m ++ a) = firstn (length m) (m' ++ b)) by (rewrite H; reflexivity).
  rewrite firstn_app, firstn_all, Nat.sub_diag in E. rewrite L in E. rewrite firstn_app, firstn_all, Nat.sub_diag in E. cbn [firstn] in E. rewrite !app_nil_r in E. subst m'.
  split; [reflexivity|]. exact (app_inv_head _ _ _ H).
Qed.
Lemma frame_complete : forall m a, ~ incomplete (frame m ++ a).
Proof. intros m a H. apply incomplete_iff in H. rewrite frame_len, len_app, len_frame in H. pose proof (len_nonneg a). pose proof (len_nonneg m). lia. Qed.
Lemma split_unique : forall ms ms' a b, stream ms ++ a = stream ms' ++ b -> incomplete a -> incomplete b -> ms = ms' /\ a = b.
Proof.
  induction ms as [|m ms IH]; intros [|m' ms'] a b H Ha Hb; unfold stream in H; cbn [flat_map app] in H; try fold (stream ms) in H; try fold (stream ms') in H.
  - split; [reflexivity|exact H].
  - exfalso. rewrite <- app_assoc in H. rewrite H in Ha. exact (frame_complete _ _ Ha).
  - exfalso. rewrite <- app_assoc in H. rewrite <- H in Hb. exact (frame_complete _ _ Hb).
  - rewrite <- !app_assoc in H. apply frame_inj in H. destruct H as (-> & H). destruct (IH ms' a b H Ha Hb) as (-> & ->). split; reflexivity.
Qed.
