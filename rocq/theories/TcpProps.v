(** C62 and C63: DNS messages over a stream of octets. *)
From Verif Require Import Base SerialModel KeyModel TcpModel TcpSpec TcpProofs TcpProofs2.

(** *** C62: what is received *)
Lemma alloc_upper : forall n, 0 <= n <= 2 ^ 62 -> buffer_alloc_size n <= Z.max 64 (2 * n).
Proof.
  intros n Hn. destruct (Z.eq_dec n 0) as [->|N0]; [vm_compute; discriminate|]. rewrite alloc_size by lia. rewrite Z.log2_lor by lia. change (Z.log2 63) with 5.
  destruct (Z.max_spec (Z.log2 (n - 1)) 5) as [(A & ->)|(A & ->)]; [vm_compute (2 ^ (5 + 1)); lia|].
  assert (0 < n - 1). { destruct (Z.eq_dec (n - 1) 0) as [E|]; [rewrite E in A; vm_compute in A; lia|lia]. }
  pose proof (Z.log2_spec (n - 1) ltac:(lia)) as (B & _). rewrite Z.pow_add_r by (try apply Z.log2_nonneg; lia). lia.
Qed.
Lemma empty_ok : buf_ok ib_empty.
Proof. split; [split; [left; exact I|constructor]|reflexivity]. Qed.
(** However the octets are cut into segments, what is delivered is the messages of the stream, each once and in order,
    and what is kept is the rest of the stream; the memory counted is what is held. *)
Theorem c62_received_partial : forall al alloc_bufs segs, Forall octets segs -> Forall (fun s => Z.of_nat (length s) < 2 ^ 48) segs ->
  exists code b ms total, receive al alloc_bufs ib_empty 0 segs [] = Ok (code, b, ms, total) /\
    ((code = KNOT_EOK /\ received (concat segs) ms (ib_bytes b) /\ (incomplete (ib_bytes b) \/ ib_bytes b = [0; 0]) /\
      total = ib_cap b /\ Z.of_nat (length (ib_bytes b)) <= total <= Z.max 64 (2 * Z.of_nat (length (ib_bytes b)))) \/
     (code = KNOT_ENOMEM /\ (exists i, fst (al i) = false \/ snd (al i) = false) /\ exists rest, received (concat segs) ms rest)).
Proof.
  intros al ab segs Ho Hl. pose proof (receive_spec al ab segs ib_empty 0 [] empty_ok Ho Hl ltac:(lia) (Forall_nil _)) as R.
  destruct (receive al ab ib_empty 0 segs []) as [[[[code b] ms] total]|?| |]; try contradiction. exists code, b, ms, total. split; [reflexivity|].
  cbn [stream flat_map app ib_bytes ib_empty ib_cap] in R. destruct R as [(A & ((B1 & B1o) & B2) & C & D & E)|(A & (i & _ & B) & C & rest & D)].
  - left. split; [exact A|]. split; [split; [exact C|exact D]|]. split; [exact B1|]. pose proof (held_small _ (conj B1 B1o)) as Hs.
    pose proof (alloc_upper (len (ib_bytes b)) ltac:(lia)) as Hu.
    assert (Hlo : len (ib_bytes b) <= ib_cap b /\ 0 <= ib_cap b <= 2 ^ 63).
    { rewrite B2. destruct (Z.eq_dec (len (ib_bytes b)) 0) as [Z0|Z0]; [rewrite Z0; vm_compute; split; [discriminate|split; discriminate]|]. pose proof (alloc_bounds (len (ib_bytes b)) ltac:(lia)). lia. }
    assert (total = ib_cap b) as -> by (rewrite E, Z.add_0_l, Z.sub_0_r; apply Z.mod_small; lia). split; [reflexivity|]. fold (len (ib_bytes b)). rewrite <- B2 in Hu. lia.
  - right. split; [exact A|]. split; [exists i; exact B|]. exists rest. split; assumption.
Qed.
(** The same stream gives the same messages whatever the cuts, except that an empty message at the very end may be late. *)
Definition late (b : inbuf) : list (list Z) := match ib_bytes b with [0; 0] => [[]] | _ => [] end.
Theorem c62_any_segments : forall al ab ab' segs segs' b b' ms ms' total total',
  Forall octets segs -> Forall octets segs' -> Forall (fun s => Z.of_nat (length s) < 2 ^ 48) segs -> Forall (fun s => Z.of_nat (length s) < 2 ^ 48) segs' ->
  concat segs = concat segs' ->
  receive al ab ib_empty 0 segs [] = Ok (KNOT_EOK, b, ms, total) -> receive al ab' ib_empty 0 segs' [] = Ok (KNOT_EOK, b', ms', total') ->
  ms ++ late b = ms' ++ late b' /\ (late b = late b' -> ib_bytes b = ib_bytes b').
Proof.
  intros al ab ab' segs segs' b b' ms ms' total total' Ho Ho' Hl Hl' Ec R R'.
  destruct (c62_received_partial al ab segs Ho Hl) as (c0 & b0 & m0 & t0 & E & H). rewrite R in E. injection E as <- <- <- <-.
  destruct (c62_received_partial al ab' segs' Ho' Hl') as (c1 & b1 & m1 & t1 & E & H'). rewrite R' in E. injection E as <- <- <- <-.
  destruct H as [(_ & (H & _) & Hi & _)|(H & _)]; [|discriminate]. destruct H' as [(_ & (H' & _) & Hi' & _)|(H' & _)]; [|discriminate].
  assert (N : forall x (m : list (list Z)), (incomplete (ib_bytes x) \/ ib_bytes x = [0; 0]) ->
    exists r, stream m ++ ib_bytes x = stream (m ++ late x) ++ r /\ incomplete r /\ (late x = [] /\ r = ib_bytes x \/ late x = [[]] /\ r = [] /\ ib_bytes x = [0; 0])).
  { intros x m [Hx|Hx].
    - exists (ib_bytes x). assert (L : late x = []).
      { unfold late. destruct (ib_bytes x) as [|u [|v [|w l]]]; try reflexivity; [destruct u; reflexivity| |destruct u as [|u|u]; try reflexivity; destruct v; reflexivity].
        destruct u as [|u|u]; try reflexivity. destruct v as [|v|v]; try reflexivity. cbn in Hx. lia. }
      rewrite L, app_nil_r. split; [reflexivity|]. split; [exact Hx|left; split; reflexivity].
    - exists []. assert (L : late x = [[]]) by (unfold late; rewrite Hx; reflexivity). rewrite L, stream_app, app_nil_r, Hx. split; [reflexivity|]. split; [exact I|right; repeat split]. }
  destruct (N b ms Hi) as (r & A & B & C). destruct (N b' ms' Hi') as (r' & A' & B' & C').
  rewrite <- H, Ec, H', A' in A. destruct (split_unique _ _ _ _ A B' B) as (E1 & E2). split; [symmetry; exact E1|]. intros El.
  destruct C as [(L & ->)|(L & -> & L2)]; destruct C' as [(L' & ->)|(L' & -> & L2')]; try congruence.
Qed.
(** Two messages in three segments, the first octet of the length alone, and a part of a third message. *)
Example c62_example : forall ab,
  receive (fun _ => (true, true)) ab ib_empty 0 [[0]; [3; 7]; [8; 9; 0; 1; 5; 0; 2; 6]] [] = Ok (KNOT_EOK, mkib [0; 2; 6] 64, [[7; 8; 9]; [5]], 64) /\
  received (concat [[0]; [3; 7]; [8; 9; 0; 1; 5; 0; 2; 6]]) [[7; 8; 9]; [5]] [0; 2; 6] /\ incomplete [0; 2; 6].
Proof.
  intros ab. split; [destruct ab; vm_compute; reflexivity|]. split; [|vm_compute; reflexivity]. split; [vm_compute; reflexivity|].
  repeat constructor; vm_compute; discriminate.
Qed.
(** An empty message whose length comes in two segments is not delivered until more data come. *)
Theorem c62_empty_late_refuted : exists segs segs' b b' total total', concat segs = concat segs' /\
  receive (fun _ => (true, true)) true ib_empty 0 segs [] = Ok (KNOT_EOK, b, [[]], total) /\
  receive (fun _ => (true, true)) true ib_empty 0 segs' [] = Ok (KNOT_EOK, b', [], total').
Proof. exists [[0; 0]], [[0]; [0]], ib_empty, (mkib [0; 0] 64), 0, 64. repeat split; vm_compute; reflexivity. Qed.
(** When memory runs out while a message is being received, the next data of the connection make the server read
    through a null pointer. *)
Theorem c62_memory_refuted : exists b data total b', 
  receive (fun _ => (true, true)) false ib_empty 0 [firstn 60 data] [] = Ok (KNOT_EOK, b, [], total) /\
  knot_tcp_inbufs_upd true false false b (skipn 60 data) total = Ok (KNOT_ENOMEM, b', [], total) /\
  forall d0 d, knot_tcp_inbufs_upd true true false b' (d0 :: d) total = UB.
Proof.
  exists (mkib ([1; 0] ++ repeat 7 58) 64), ([1; 0] ++ repeat 7 80), 64, (mkib ([1; 0] ++ repeat 7 58) 0).
  split; [vm_compute; reflexivity|]. split; [vm_compute; reflexivity|]. intros d0 d. reflexivity.
Qed.

(** *** C63: what is sent *)
Definition replies (evs : list event) : list (list Z) := flat_map (fun e => match e with Reply d => [d] | _ => [] end) evs.
(** Confirmations are 32-bit numbers, windows are below 2^31. *)
Definition event_ok (e : event) : Prop := match e with Confirm a => 0 <= a < 2 ^ 32 | Send w _ => w < 2 ^ 31 | Reply _ => True end.
Definition out_stream (evs : list event) : list Z := stream (filter sendable (replies evs)).
Lemma queued_sendable : forall d, queued d = stream (filter sendable [d]).
Proof.
  intros d. unfold queued. cbn [filter]. fold (len d) in *. unfold sendable. fold (len d). destruct ((0 <? len d) && (len d <=? 65535)); [|reflexivity].
  unfold stream. cbn [flat_map]. rewrite app_nil_r. reflexivity.
Qed.
Lemma play_inv : forall isn mss evs s c total trace pre S U x, 536 <= mss <= 65535 -> Forall event_ok evs -> cinv isn mss s c total trace pre S U x ->
  exists c' total' trace' pre' S' U' x', play mss c total evs trace = Ok (c', total', trace') /\ cinv isn mss (s ++ out_stream evs) c' total' trace' pre' S' U' x' /\ x <= x'.
Proof.
  intros isn mss. induction evs as [|e evs IH]; intros s c total trace pre S U x Hm Ho Iv.
  - exists c, total, trace, pre, S, U, x. split; [reflexivity|]. change (out_stream []) with (@nil Z). rewrite app_nil_r. split; [exact Iv|lia].
  - inversion Ho as [|? ? Oe Oes]; subst. destruct e as [d|w r|a]; cbn [play].
    + destruct (reply_inv isn mss s c total trace pre S U x d Hm Iv) as (code & c1 & t1 & U1 & -> & _ & Iv1). cbn [rbind].
      destruct (IH _ _ _ _ _ _ _ _ Hm Oes Iv1) as (c' & t' & tr' & p' & S' & U' & x' & E & F & G). exists c', t', tr', p', S', U', x'. split; [exact E|]. split; [|exact G].
      assert (out_stream (Reply d :: evs) = queued d ++ out_stream evs) as ->; [|rewrite app_assoc; exact F].
      unfold out_stream. change (replies (Reply d :: evs)) with ([d] ++ replies evs). rewrite filter_app, stream_app, queued_sendable. reflexivity.
    + destruct (knot_tcp_send c w r) as [c1 segs] eqn:E1. destruct (send_inv isn mss s c total trace pre S U x w r c1 segs Iv Oe E1) as ((S1 & U1 & Iv1) & _).
      destruct (IH _ _ _ _ _ _ _ _ Hm Oes Iv1) as (c' & t' & tr' & p' & S' & U' & x' & E & F & G). exists c', t', tr', p', S', U', x'. repeat match goal with |- _ /\ _ => split end; assumption.
    + destruct (knot_tcp_recv_ack c a total) as [c1 t1] eqn:E1. destruct (confirm_inv isn mss s c total trace pre S U x a c1 t1 Iv Oe E1) as (pre1 & S1 & x1 & Iv1 & Hx).
      destruct (IH _ _ _ _ _ _ _ _ Hm Oes Iv1) as (c' & t' & tr' & p' & S' & U' & x' & E & F & G). exists c', t', tr', p', S', U', x'. split; [exact E|]. split; [exact F|lia].
Qed.
Lemma start_inv : forall isn mss, 0 <= isn < 2 ^ 32 -> cinv isn mss [] (mkcn isn isn []) 0 [] [] [] [] 0.
Proof.
  intros isn mss Hi. assert (E : isn = (isn + 0) mod 2 ^ 32) by (rewrite Z.add_0_r, Z.mod_small; lia).
  assert (L0 : len [] = 0) by reflexivity. assert (B0 : bytes_of [] = []) by reflexivity.
  constructor; cbn [cn_out cn_ackno cn_acked app seqs]; rewrite ?B0, ?L0.
  - reflexivity.
  - reflexivity.
  - exact I.
  - constructor.
  - constructor.
  - exact E.
  - exact E.
  - lia.
  - lia.
  - exact I.
  - constructor.
  - intros j Hj. lia.
  - reflexivity.
Qed.
(** At every time there are positions [x], confirmed by the client, and [p], up to where the stream was sent, with:
    every segment has the octets of the stream at its sequence number; none is skipped; all that is not confirmed is kept to
    be sent again; when all is confirmed nothing that was sent is kept; no piece is larger than a segment; the memory counted is the memory held. *)
Theorem c63_sent_partial : forall isn mss evs, 0 <= isn < 2 ^ 32 -> 536 <= mss <= 65535 -> Forall event_ok evs ->
  exists c total trace, play mss (mkcn isn isn []) 0 evs [] = Ok (c, total, trace) /\
  exists x p kept, cn_acked c = (isn + x) mod 2 ^ 32 /\ cn_ackno c = (isn + p) mod 2 ^ 32 /\
    kept <= x <= p /\ 0 <= kept /\ p <= Z.of_nat (length (out_stream evs)) /\ p - x < 2 ^ 31 /\
    Forall (fun seg => exists i, placed isn (out_stream evs) seg i /\ i + Z.of_nat (length (snd seg)) <= p) trace /\
    all_sent isn (out_stream evs) trace p /\
    skipn (Z.to_nat kept) (out_stream evs) = concat (map o_bytes (cn_out c)) /\
    (x = p -> Forall (fun o => o_sent o = false) (cn_out c)) /\
    Forall (fun o => 0 < Z.of_nat (length (o_bytes o)) <= mss) (cn_out c) /\
    total = fold_right (fun o a => Z.of_nat (length (o_bytes o)) + OBUF_SIZE + a) 0 (cn_out c) mod 2 ^ 64.
Proof.
  intros isn mss evs Hi Hm Ho. destruct (play_inv isn mss evs [] _ _ _ _ _ _ _ Hm Ho (start_inv isn mss Hi)) as (c & total & trace & pre & S & U & x & E & [I1 I2 I3 I4 I5 I6 I7 I8 I9 I10 I11 I12 I13] & _).
  exists c, total, trace. split; [exact E|]. exists x, (len pre + len (bytes_of S)), (len pre). cbn [app] in *. pose proof (len_nonneg pre). rewrite I1.
  repeat match goal with |- _ /\ _ => split end; auto; try lia.
  - rewrite I2, bytes_app. unfold len. rewrite !app_length. lia.
  - rewrite I2. unfold len. rewrite Nat2Z.id, skipn_app, skipn_all, Nat.sub_diag. reflexivity.
  - intros ->. destruct S as [|o S]; [exact I4|]. rewrite bytes_cons, len_app in I10. pose proof (len_nonneg (bytes_of S)). lia.
Qed.
(** No segment reaches beyond the window that the client has offered after what it confirmed. *)
Theorem c63_window_partial : forall isn mss evs w resend c total trace c' segs, 0 <= isn < 2 ^ 32 -> 536 <= mss <= 65535 -> Forall event_ok evs -> w < 2 ^ 31 ->
  play mss (mkcn isn isn []) 0 evs [] = Ok (c, total, trace) -> knot_tcp_send c w resend = (c', segs) ->
  exists x p, cn_acked c = (isn + x) mod 2 ^ 32 /\ cn_ackno c = (isn + p) mod 2 ^ 32 /\ 0 <= p - x < 2 ^ 31 /\ all_sent isn (out_stream evs) trace p /\
    Forall (fun seg => exists i, placed isn (out_stream evs) seg i /\ i + Z.of_nat (length (snd seg)) <= x + w) segs.
Proof.
  intros isn mss evs w r c total trace c' segs Hi Hm Ho Hw E Es. destruct (play_inv isn mss evs [] _ _ _ _ _ _ _ Hm Ho (start_inv isn mss Hi)) as (c0 & t0 & tr0 & pre & S & U & x & E0 & Iv & _).
  rewrite E in E0. injection E0 as <- <- <-. destruct (send_inv _ _ _ _ _ _ _ _ _ _ w r c' segs Iv Hw Es) as (_ & W). destruct Iv as [I1 I2 I3 I4 I5 I6 I7 I8 I9 I10 I11 I12 I13].
  exists x, (len pre + len (bytes_of S)). repeat match goal with |- _ /\ _ => split end; auto; try lia.
  eapply Forall_impl; [|exact W]. intros g (i & P1 & P2 & P3). exists i. split; [exact P1|]. unfold len in *. lia.
Qed.
(** Sending again starts with the octet the client waits for, and it does send if the window has room for a segment. *)
Theorem c63_resend_partial : forall isn mss evs w c total trace c' segs, 0 <= isn < 2 ^ 32 -> 536 <= mss <= 65535 -> Forall event_ok evs -> mss <= w < 2 ^ 31 ->
  play mss (mkcn isn isn []) 0 evs [] = Ok (c, total, trace) -> knot_tcp_send c w true = (c', segs) ->
  exists x, cn_acked c = (isn + x) mod 2 ^ 32 /\
    (x < Z.of_nat (length (out_stream evs)) -> exists seg rest i, segs = seg :: rest /\ placed isn (out_stream evs) seg i /\ i <= x < i + Z.of_nat (length (snd seg))).
Proof.
  intros isn mss evs w c total trace c' segs Hi Hm Ho Hw E Es. destruct (play_inv isn mss evs [] _ _ _ _ _ _ _ Hm Ho (start_inv isn mss Hi)) as (c0 & t0 & tr0 & pre & S & U & x & E0 & Iv & _).
  rewrite E in E0. injection E0 as <- <- <-. pose proof (send_inv _ _ _ _ _ _ _ _ _ _ w true c' segs Iv ltac:(lia) Es) as (_ & W). destruct Iv as [I1 I2 I3 I4 I5 I6 I7 I8 I9 I10 I11 I12 I13].
  exists x. split; [exact I7|]. intros Hx. cbn [app] in *. fold (len (out_stream evs)) in Hx. rewrite I2, len_app in Hx.
  unfold knot_tcp_send in Es. rewrite skip_resend, I1 in Es.
  destruct (S ++ U) as [|o l] eqn:El; [destruct S; [|discriminate]; change (len (bytes_of [])) with 0 in *; lia|].
  inversion I5 as [|? ? Sz _]; subst. unfold sized in Sz. cbn [count_send] in Es. assert (w >=? len (o_bytes o) = true) as Ew by lia. rewrite Ew in Es. cbn [send_loop] in Es.
  destruct (send_loop (count_send l (w - len (o_bytes o))) l (if o_sent o then cn_ackno c else w32 (cn_ackno c + len (o_bytes o)))) as [[rb ra] rs]. injection Es as <- <-.
  exists (if o_sent o then o_seq o else cn_ackno c, o_bytes o), rs, (len pre). split; [reflexivity|]. cbn [snd]. fold (len (o_bytes o)).
  assert (Sq : (if o_sent o then o_seq o else cn_ackno c) = (isn + len pre) mod 2 ^ 32 /\ len pre <= x < len pre + len (o_bytes o)).
  { destruct S as [|o1 S].
    - cbn [app] in El. subst U. inversion I4 as [|? ? Un _]; subst. unfold unsent in Un. rewrite Un, I6. change (len (bytes_of [])) with 0 in *. rewrite Z.add_0_r. split; [reflexivity|lia].
    - cbn [app] in El. injection El as -> _. cbn [seqs] in I3. destruct I3 as (Q1 & Q2 & _). rewrite Q1. split; [exact Q2|lia]. }
  destruct Sq as (Sq & Sx). split; [|exact Sx]. exists pre, (bytes_of l). rewrite I2. split; [reflexivity|]. split; [reflexivity|exact Sq].
Qed.
(** A reply longer than a segment is cut, the window holds back the rest, a confirmation of the first piece lets the second go. *)
Definition exreply : list Z := repeat 7 600.
Example c63_example : exists c,
  play 536 (mkcn (2 ^ 32 - 10) (2 ^ 32 - 10) []) 0 [Reply exreply; Send 600 false; Confirm 526; Send 600 false; Send 600 true] [] =
    Ok (c, 90, [(2 ^ 32 - 10, [2; 88] ++ repeat 7 534); (526, repeat 7 66); (526, repeat 7 66)]) /\
  cn_acked c = 526 /\ cn_ackno c = 592 /\ length (cn_out c) = 1%nat.
Proof. eexists. split; [vm_compute; reflexivity|]. split; [reflexivity|]. split; reflexivity. Qed.
(** A segment size that the caller does not bound from below, or that passes 16 bits, makes the function write out of its memory. *)
Theorem c63_small_mss_refuted : knot_tcp_outbufs_add (fun _ => true) [] [1; 2; 3] 1 0 = UB.
Proof. vm_compute. reflexivity. Qed.
(** Without memory in the middle of a reply its beginning stays in the queue, and what follows is taken for its rest. *)
Theorem c63_memory_refuted : exists bufs total, knot_tcp_outbufs_add (fun k => (601 <? Z.of_nat k)) [] exreply 536 0 = Ok (KNOT_ENOMEM, bufs, total) /\ bufs <> [] /\
  incomplete (concat (map o_bytes bufs)).
Proof. eexists _, _. split; [vm_compute; reflexivity|]. split; [discriminate|]. vm_compute. reflexivity. Qed.

Print Assumptions c62_received_partial.
Print Assumptions c62_any_segments.
Print Assumptions c62_empty_late_refuted.
Print Assumptions c62_memory_refuted.
Print Assumptions c63_sent_partial.
Print Assumptions c63_window_partial.
Print Assumptions c63_resend_partial.
Print Assumptions c63_small_mss_refuted.
Print Assumptions c63_memory_refuted.
