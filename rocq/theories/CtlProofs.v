(** Proofs about the control channel. *)
From Verif Require Import Base WireModel WireProofs WireProps CtlModel.

(** * Scripts without failures *)
Definition okcall (c : call) : Prop :=
  match c with Move n => 0 < n | Intr | Again => True | Fail => False end.
Definition is_move (c : call) : bool := match c with Move _ => true | _ => false end.
Definition is_again (c : call) : bool := match c with Again => true | _ => false end.
Fixpoint cnt {A} (p : A -> bool) (l : list A) : Z :=
  match l with [] => 0 | x :: l => (if p x then 1 else 0) + cnt p l end.
Lemma cnt_nonneg : forall A p (l : list A), 0 <= cnt p l.
Proof. induction l as [|x l IH]; cbn [cnt]; [lia|]. destruct (p x); lia. Qed.

(** the script lets [k] bytes through *)
Definition able_out (s : sock) (k : Z) : Prop :=
  Forall okcall (s_calls s) /\ Forall (eq Ready) (s_polls s) /\ k <= cnt is_move (s_calls s) /\
  cnt is_move (s_calls s) + cnt is_again (s_calls s) <= zlen (s_polls s).
Definition able_in (s : sock) : Prop :=
  Forall okcall (s_calls s) /\ Forall (eq Ready) (s_polls s) /\ zlen (s_pipe s) <= cnt is_move (s_calls s) /\
  cnt is_again (s_calls s) <= zlen (s_polls s).

Lemma io_wait_code : forall ps r ps', io_wait ps = Ok (r, ps') -> r = KNOT_EOK \/ r = KNOT_ETIMEOUT \/ r = KNOT_ECONN.
Proof. induction ps as [|p ps IH]; intros r ps' H; [discriminate|]. destruct p; cbn [io_wait] in H; try (injection H as <- <-); auto. eauto. Qed.
Lemma io_wait_total : forall ps, (exists r ps', io_wait ps = Ok (r, ps')) \/ io_wait ps = blocked.
Proof. induction ps as [|p ps IH]; cbn [io_wait]; auto. destruct p; eauto. Qed.
Lemma io_wait_able : forall ps, Forall (eq Ready) ps -> 1 <= zlen ps -> exists ps', io_wait ps = Ok (KNOT_EOK, ps') /\ Forall (eq Ready) ps' /\ zlen ps' = zlen ps - 1.
Proof. intros [|p ps] H L; [rewrite zlen_nil in L; lia|]. inversion H; subst. cbn [io_wait]. eexists. split; [reflexivity|]. split; [auto|]. rewrite zlen_cons. lia. Qed.

Lemma zskipn_len : forall A (l : list A) n, 0 <= n <= zlen l -> zlen (zskipn n l) = zlen l - n.
Proof. intros. apply zlen_zskipn. auto. Qed.

(** * Sending *)
Lemma io_send_ok : forall cs ps pipe d done total, done + zlen d = total -> 0 <= done ->
  match io_send cs ps pipe d done total with
  | Ok (ret, s) => (ret = total /\ s_pipe s = pipe ++ d) \/ ret < 0
  | r => r = blocked
  end.
Proof.
  induction cs as [|c cs IH]; intros ps pipe d done total HT HD; cbn [io_send]; [reflexivity|]. destruct c.
  - cbv zeta. destruct (Z.min n (zlen d) <=? 0) eqn:E; [right; unfold KNOT_ECONN; lia|]. set (k := Z.min n (zlen d)) in *. assert (HK : 0 < k <= zlen d) by (subst k; lia).
    destruct (done + k =? total) eqn:ET.
    + left. split; [lia|]. cbn [s_pipe]. f_equal. apply zfirstn_all. lia.
    + destruct (io_wait_total ps) as [(r & ps' & EW)|EW]; rewrite EW; [|reflexivity]. cbn [rbind]. destruct (r =? KNOT_EOK) eqn:ER.
      * pose proof (IH ps' (pipe ++ zfirstn k d) (zskipn k d) (done + k) total) as G. specialize (G ltac:(rewrite zlen_zskipn by lia; lia) ltac:(lia)).
        destruct (io_send _ _ _ _ _ _) as [[r2 s]| | |]; auto. destruct G as [[G1 G2]|G]; auto. left. split; auto. rewrite G2, <- app_assoc, zfirstn_skipn. auto.
      * right. destruct (io_wait_code ps r ps' EW) as [->|[->| ->]]; try (vm_compute in ER; discriminate ER); unfold KNOT_ETIMEOUT, KNOT_ECONN; lia.
  - apply IH; auto.
  - destruct (io_wait_total ps) as [(r & ps' & E)|E]; rewrite E; [|reflexivity]. cbn [rbind]. destruct (r =? KNOT_EOK) eqn:ER; [apply IH; auto|].
    right. destruct (io_wait_code ps r ps' E) as [->|[->| ->]]; try (vm_compute in ER; discriminate ER); unfold KNOT_ETIMEOUT, KNOT_ECONN; lia.
  - right. unfold KNOT_ECONN. lia.
Qed.

Lemma io_send_able : forall cs ps pipe d done total k, done + zlen d = total -> 0 <= done -> d <> [] -> zlen d <= k -> able_out (mksock cs ps pipe) k ->
  exists s, io_send cs ps pipe d done total = Ok (total, s) /\ able_out s (k - zlen d).
Proof.
  induction cs as [|c cs IH]; intros ps pipe d done total k HT HD NE HK (A1 & A2 & A3 & A4); cbn [s_calls s_polls cnt] in *.
  - destruct d; [congruence|]. rewrite zlen_cons in HK. pose proof (zlen_nonneg d). lia.
  - assert (PD : 0 < zlen d) by (destruct d; [congruence|rewrite zlen_cons; pose proof (zlen_nonneg d); lia]).
    pose proof (cnt_nonneg _ is_move cs). pose proof (cnt_nonneg _ is_again cs). inversion A1 as [|? ? C1 C2]; subst x l. cbn [io_send]. destruct c; cbn [okcall is_move is_again] in *; [| | |tauto].
    + cbv zeta. set (m := Z.min n (zlen d)). assert (HM : 0 < m <= zlen d) by (subst m; lia). replace (m <=? 0) with false by lia. destruct (done + m =? total) eqn:ET.
      * eexists. split; [f_equal; f_equal; lia|]. split; [auto|]. split; [auto|]. cbn [s_calls s_polls]. split; [lia|]. lia.
      * destruct (io_wait_able ps A2 ltac:(lia)) as (ps' & -> & B1 & B2). cbn [rbind]. change (KNOT_EOK =? KNOT_EOK) with true. cbv iota.
        destruct (IH ps' (pipe ++ zfirstn m d) (zskipn m d) (done + m) total (k - m)) as (s & E & G).
        { rewrite zlen_zskipn by lia. lia. } { lia. } { intros E. assert (zlen (zskipn m d) = 0) by (rewrite E; reflexivity). rewrite zlen_zskipn in H1 by lia. lia. }
        { rewrite zlen_zskipn by lia. lia. } { split; [auto|]. split; [auto|]. cbn [s_calls s_polls]. split; lia. }
        exists s. split; [exact E|]. rewrite zlen_zskipn in G by lia. replace (k - m - (zlen d - m)) with (k - zlen d) in G by lia. exact G.
    + apply IH; auto. split; [auto|]. split; [auto|]. cbn [s_calls s_polls]. lia.
    + destruct (io_wait_able ps A2 ltac:(lia)) as (ps' & -> & B1 & B2). cbn [rbind]. change (KNOT_EOK =? KNOT_EOK) with true. cbv iota. apply IH; auto. split; [auto|]. split; [auto|]. cbn [s_calls s_polls]. lia.
Qed.

(** What a call gives: either success with [P], or an error code, or waiting for ever. The last
    two cannot happen if [G] holds. *)
Definition gives {A} (r : res (Z * A)) (G : Prop) (P : A -> Prop) : Prop :=
  match r with
  | Ok (ret, a) => if ret =? KNOT_EOK then P a else ~ G
  | Err e => e = KNOT_EAGAIN /\ ~ G
  | UB | OOF => False
  end.
Lemma gives_bind : forall A B (r : res (Z * A)) (f : A -> res (Z * B)) (e : Z -> A -> B) (G : Prop) P Q,
  gives r G P -> (forall a, P a -> gives (f a) G Q) ->
  gives (let* (ret, a) := r in if negb (ret =? KNOT_EOK) then Ok (ret, e ret a) else f a) G Q.
Proof. intros A B r f e G P Q H1 H2. destruct r as [[ret a]| | |]; cbn [rbind gives] in *; auto. destruct (ret =? KNOT_EOK) eqn:E; cbn [negb]; auto. cbn [gives]. rewrite E. auto. Qed.
Lemma gives_weaken : forall A (r : res (Z * A)) (G G' : Prop) (P P' : A -> Prop), gives r G P -> (G' -> G) -> (forall a, P a -> P' a) -> gives r G' P'.
Proof. intros A r G G' P P' H HG HP. destruct r as [[ret a]| | |]; cbn [gives] in *; auto; [|tauto]. destruct (ret =? KNOT_EOK); auto. Qed.

(** the sender after the bytes [S]; [k] bytes more will come *)
Definition sending (bs : Z) (c : ctl) (S : list Z) : Prop :=
  exists pre post, at_ (c_wire c) pre post /\ w_ro (c_wire c) = false /\ zlen pre + zlen post = bs /\ s_pipe (c_sock c) ++ pre = S.
Definition buffered (c : ctl) : Z := w_pos (c_wire c).
Definition able (c : ctl) (k : Z) : Prop := able_out (c_sock c) (buffered c + k).

Lemma able_le : forall s k k', able_out s k -> k' <= k -> able_out s k'.
Proof. intros s k k' (A & B & C & D) H. split; [auto|]. split; [auto|]. split; [lia|auto]. Qed.

Lemma flush_ok : forall bs c S k, 0 < bs < 2 ^ 63 -> sending bs c S -> 0 < buffered c -> 0 <= k ->
  gives (let* (ret, s) := net_stream_send (c_sock c) (zfirstn (wire_offset (c_wire c)) (w_buf (c_wire c))) in
         if ret <? 0 then Ok (ret, mkctl s (c_wire c)) else Ok (KNOT_EOK, mkctl s (rewind (c_wire c))))
    (able c k) (fun c' => sending bs c' S /\ buffered c' = 0 /\ s_pipe (c_sock c') = S /\ (able c k -> able c' k)).
Proof.
  intros bs c S k HB (pre & post & HA & HR & HL & HS) HP HK. unfold buffered in *. destruct (at_wf _ _ _ HA) as [W SZ]. pose proof HA as (A1 & A2 & A3 & A4). rewrite wf_offset by auto. rewrite A1, A2, zfirstn_app_exact.
  assert (RW : forall s, s_pipe s = S -> sending bs (mkctl s (rewind (c_wire c))) S /\ buffered (mkctl s (rewind (c_wire c))) = 0 /\ s_pipe (c_sock (mkctl s (rewind (c_wire c)))) = S).
  { intros s E. split; [|auto]. exists [], (pre ++ post). unfold rewind, wire_init. cbn [c_wire c_sock w_ro]. split; [split; [exact A1|]; auto|]. split; [auto|]. split; [rewrite zlen_app, zlen_nil; lia|]. rewrite app_nil_r. auto. }
  destruct (c_sock c) as [cs ps pipe] eqn:EC. unfold net_stream_send. cbn [s_calls s_polls s_pipe] in *.
  pose proof (io_send_ok cs ps pipe pre 0 (zlen pre) ltac:(lia) ltac:(lia)) as G.
  pose proof (io_send_able cs ps pipe pre 0 (zlen pre) (zlen pre + k) ltac:(lia) ltac:(lia)) as GA. specialize (GA ltac:(intros ->; rewrite zlen_nil in A2; lia) ltac:(lia)).
  unfold able, buffered. rewrite EC, A2. destruct (io_send cs ps pipe pre 0 (zlen pre)) as [[ret s]|e| |]; cbn [rbind].
  - destruct G as [[-> G]|G].
    + pose proof (zlen_nonneg pre). replace (zlen pre <? 0) with false by lia. rewrite Z.eqb_refl. cbn [negb rbind]. replace (zlen pre <? 0) with false by lia. cbn [gives]. change (KNOT_EOK =? KNOT_EOK) with true. cbv iota.
      destruct (RW s ltac:(congruence)) as (R1 & R2 & R3). split; [auto|]. split; [auto|]. split; [auto|]. intros AB. destruct (GA AB) as (s' & E & AB'). injection E as <-. unfold rewind, wire_init. cbn [c_sock c_wire w_pos]. replace (zlen pre + k - zlen pre) with (0 + k) in AB' by lia. exact AB'.
    + replace (ret <? 0) with true by lia. cbn [rbind]. replace (ret <? 0) with true by lia. cbn [gives]. replace (ret =? KNOT_EOK) with false by (unfold KNOT_EOK; lia). intros AB. destruct (GA AB) as (s' & E & AB'). injection E as E1 E2. pose proof (zlen_nonneg pre). lia.
  - cbn [gives]. unfold blocked in G. injection G as ->. split; [auto|]. intros AB. destruct (GA AB) as (s' & E & AB'). discriminate E.
  - discriminate G.
  - discriminate G.
Qed.

Lemma ensure_output_ok : forall bs c S len k, 0 < bs < 2 ^ 63 -> 0 <= len <= 65535 -> len <= bs -> sending bs c S -> 0 <= k ->
  gives (ensure_output c len) (able c k)
    (fun c' => sending bs c' S /\ len <= bs - buffered c' /\ (able c k -> able c' k)).
Proof.
  intros bs c S len k HB HLn HLb HS HK. pose proof HS as (pre & post & HA & HR & HL & HE). destruct (at_wf _ _ _ HA) as [W SZ]. pose proof HA as (A1 & A2 & A3 & A4). unfold ensure_output. cbv zeta. rewrite wf_avail by auto. unfold u16. rewrite Z.mod_small by lia. unfold buffered.
  destruct (w_size (c_wire c) - w_pos (c_wire c) >=? len) eqn:E.
  - cbn [gives]. change (KNOT_EOK =? KNOT_EOK) with true. cbv iota. split; [auto|]. split; [lia|auto].
  - eapply gives_weaken; [apply (flush_ok bs c S k); auto; unfold buffered; lia|auto|]. intros c' (B1 & B2 & B3 & B4). split; [auto|]. split; [unfold buffered in B2; lia|auto].
Qed.

Lemma write_ok : forall bs c S d k, sending bs c S -> zlen d <= bs - buffered c ->
  exists w, wire_write (c_wire c) d = Ok w /\ w_err w = KNOT_EOK /\ sending bs (mkctl (c_sock c) w) (S ++ d) /\ (able c (zlen d + k) -> able (mkctl (c_sock c) w) k).
Proof.
  intros bs c S d k (pre & post & HA & HR & HL & HE) HD. unfold buffered in HD. pose proof HA as (A1 & A2 & A3 & A4).
  destruct (c48_write _ _ _ d HA HR) as [G _]. destruct (G ltac:(lia)) as (w & E & HA' & HR'). exists w. split; [auto|]. pose proof HA' as (B1 & B2 & B3 & B4). split; [auto|]. split.
  - exists (pre ++ d), (zskipn (zlen d) post). cbn [c_wire c_sock]. split; [auto|]. split; [auto|]. pose proof (zlen_nonneg d). rewrite zlen_app, zlen_zskipn by lia. split; [lia|]. rewrite app_assoc, HE. auto.
  - unfold able, buffered. cbn [c_wire c_sock]. rewrite B2, A2, zlen_app. intros AB. eapply able_le; [exact AB|]. lia.
Qed.

Lemma be1 : forall c, 0 <= c < 256 -> be 1 c = [c].
Proof. intros. unfold be. change (256 ^ Z.of_nat 0) with 1. rewrite Z.div_1_r, Z.mod_small by lia. auto. Qed.

(** the bytes of one item *)
Definition item (code : Z) (v : option (list Z)) : list Z :=
  code :: match v with None => [] | Some d => be 2 (zlen d) ++ d end.
Definition fits (bs : Z) (v : option (list Z)) : Prop :=
  match v with None => True | Some d => zlen d <= 65535 /\ zlen d <= bs end.

Lemma send_item_ok : forall bs c S code v fl k, 2 <= bs < 2 ^ 63 -> 0 <= code < 256 -> fits bs v -> sending bs c S -> 0 <= k ->
  gives (send_item c code v fl) (able c (zlen (item code v) + k))
    (fun c' => sending bs c' (S ++ item code v) /\ (fl = true -> buffered c' = 0) /\ (able c (zlen (item code v) + k) -> able c' k)).
Proof.
  intros bs c S code v fl k HB HC HF HS HK. unfold send_item. set (K := zlen (item code v) + k). pose proof (zlen_nonneg (item code v)).
  apply gives_bind with (e := fun _ c => c) (P := fun c' => sending bs c' S /\ 1 <= bs - buffered c' /\ (able c K -> able c' K)).
  { apply ensure_output_ok; auto; lia. }
  intros c1 (S1 & L1 & AB1). unfold wire_write_u8. rewrite be1 by lia.
  assert (KE : K = zlen [code] + (zlen (match v with None => [] | Some d => be 2 (zlen d) ++ d end) + k)) by (subst K; unfold item; rewrite zlen_cons; change (zlen [code]) with 1; lia).
  destruct (write_ok bs c1 S [code] (zlen (match v with None => [] | Some d => be 2 (zlen d) ++ d end) + k) S1) as (w & EW & EE & S2 & AB2).
  { change (zlen [code]) with 1. lia. }
  rewrite EW. cbn [rbind]. cbv zeta. rewrite EE. change (KNOT_EOK =? KNOT_EOK) with true. cbn [negb]. rewrite <- KE in AB2. set (c2 := mkctl (c_sock c1) w) in *.
  apply gives_bind with (e := fun _ c => c) (P := fun c' => sending bs c' (S ++ item code v) /\ (able c K -> able c' k)).
  - destruct v as [d|].
    + destruct HF as [F1 F2]. replace (zlen d >? 65535) with false by lia. rewrite zlen_app, be_length in AB2. pose proof (zlen_nonneg d).
      eapply gives_bind with (e := fun _ c => c) (P := fun c' => sending bs c' (S ++ [code]) /\ 2 <= bs - buffered c' /\ (able c K -> able c' (zlen (be 2 (zlen d)) + (zlen d + k)))).
      { eapply gives_weaken; [apply (ensure_output_ok bs c2 (S ++ [code]) 2 (2 + zlen d + k)); auto; try lia|auto|]. intros a (Q1 & Q2 & Q3). split; [auto|]. split; [auto|]. rewrite be_length. replace (Z.of_nat 2 + (zlen d + k)) with (2 + zlen d + k) by lia. auto. }
      intros c3 (S3 & L3 & AB3). unfold wire_write_u16. destruct (write_ok bs c3 (S ++ [code]) (be 2 (zlen d)) (zlen d + k) S3) as (w3 & EW3 & EE3 & S4 & AB4). { rewrite be_length. lia. }
      rewrite EW3. cbn [rbind]. cbv zeta. rewrite EE3. change (KNOT_EOK =? KNOT_EOK) with true. cbn [negb]. set (c4 := mkctl (c_sock c3) w3) in *.
      eapply gives_bind with (e := fun _ c => c) (P := fun c' => sending bs c' ((S ++ [code]) ++ be 2 (zlen d)) /\ zlen d <= bs - buffered c' /\ (able c K -> able c' (zlen d + k))).
      { eapply gives_weaken; [apply (ensure_output_ok bs c4 ((S ++ [code]) ++ be 2 (zlen d)) (zlen d) (zlen d + k)); [lia|lia|lia|exact S4|lia]|auto|]. intros a (Q1 & Q2 & Q3). split; [auto|]. split; [auto|]. auto. }
      intros c5 (S5 & L5 & AB5). destruct (write_ok bs c5 _ d k S5) as (w5 & EW5 & EE5 & S6 & AB6). { lia. }
      rewrite EW5. cbn [rbind]. cbv zeta. rewrite EE5. change (KNOT_EOK =? KNOT_EOK) with true. cbn [negb gives]. change (KNOT_EOK =? KNOT_EOK) with true. cbv iota.
      split; [|auto]. unfold item. replace (S ++ code :: be 2 (zlen d) ++ d) with (((S ++ [code]) ++ be 2 (zlen d)) ++ d) by (rewrite <- !app_assoc; reflexivity). exact S6.
    + cbn [gives]. change (KNOT_EOK =? KNOT_EOK) with true. cbv iota. split; [exact S2|]. rewrite zlen_nil in AB2. auto.
  - intros c3 (S3 & AB3). pose proof S3 as (pre & post & HA & HR & HL & HE). destruct (at_wf _ _ _ HA) as [W SZ]. pose proof HA as (A1 & A2 & A3 & A4). rewrite wf_offset by auto.
    destruct (fl && (w_pos (c_wire c3) >? 0)) eqn:EF.
    + cbv zeta. pose proof (flush_ok bs c3 (S ++ item code v) k ltac:(lia) S3 ltac:(unfold buffered; lia) HK) as G. rewrite wf_offset in G by auto. eapply gives_weaken; [exact G|auto|]. intros c4 (Q1 & Q2 & Q3 & Q4). split; [auto|]. split; auto.
    + cbn [gives]. change (KNOT_EOK =? KNOT_EOK) with true. cbv iota. split; [auto|]. split; [|auto]. intros ->. unfold buffered. pose proof (zlen_nonneg pre). lia.
Qed.

Fixpoint values (i : Z) (d : data) : list Z :=
  match d with
  | [] => []
  | None :: d => values (i + 1) d
  | Some v :: d => item (DATA_CODE_OFFSET + i) (Some v) ++ values (i + 1) d
  end.

Lemma send_values_ok : forall d bs c S i k, 2 <= bs < 2 ^ 63 -> 0 <= i -> i + zlen d <= IDX_COUNT -> Forall (fits bs) d -> sending bs c S -> 0 <= k ->
  gives (send_values c i d) (able c (zlen (values i d) + k))
    (fun c' => sending bs c' (S ++ values i d) /\ (able c (zlen (values i d) + k) -> able c' k)).
Proof.
  induction d as [|v d IH]; intros bs c S i k HB HI HL HF HS HK; cbn [send_values values].
  - cbn [gives]. change (KNOT_EOK =? KNOT_EOK) with true. cbv iota. rewrite app_nil_r. split; [auto|]. rewrite zlen_nil. auto.
  - rewrite zlen_cons in HL. pose proof (zlen_nonneg d). inversion HF; subst. destruct v as [v|].
    + unfold idx_to_code. replace (i >=? IDX_COUNT) with false by lia. pose proof (zlen_nonneg (values (i + 1) d)).
      replace (zlen (item (DATA_CODE_OFFSET + i) (Some v) ++ values (i + 1) d) + k) with (zlen (item (DATA_CODE_OFFSET + i) (Some v)) + (zlen (values (i + 1) d) + k)) by (rewrite zlen_app; lia).
      eapply gives_bind with (e := fun _ c => c). { apply (send_item_ok bs c S (DATA_CODE_OFFSET + i) (Some v) false (zlen (values (i + 1) d) + k)); auto; [unfold DATA_CODE_OFFSET, IDX_COUNT in *; lia|lia]. }
      intros c1 (Q1 & Q2 & Q3). eapply gives_weaken; [apply (IH bs c1 (S ++ item (DATA_CODE_OFFSET + i) (Some v)) (i + 1) k); auto; lia|auto|].
      intros c2 (R1 & R2). rewrite app_assoc. split; auto.
    + apply IH; auto. lia. lia.
Qed.

(** * Receiving *)
Definition receiving (bs : Z) (c : ctl) (S : list Z) : Prop :=
  exists pre post, at_ (c_wire c) pre post /\ zlen pre + zlen post <= bs /\ post ++ s_pipe (c_sock c) = S.
Definition rin (c : ctl) : Prop := able_in (c_sock c).

Lemma io_recv_ok : forall cs ps pipe size,
  match io_recv cs ps pipe size with
  | Ok (ret, d, s) => (length (s_calls s) < length cs)%nat /\
      ((0 < ret /\ ret = zlen d /\ ret <= size /\ d ++ s_pipe s = pipe /\ (able_in (mksock cs ps pipe) -> able_in s)) \/
       (ret < 0 /\ ~ (able_in (mksock cs ps pipe) /\ pipe <> [] /\ 0 < size)))
  | r => r = blocked /\ ~ (able_in (mksock cs ps pipe) /\ pipe <> [] /\ 0 < size)
  end.
Proof.
  induction cs as [|c cs IH]; intros ps pipe size; cbn [io_recv].
  - split; [reflexivity|]. intros ((_ & _ & A & _) & B & _). cbn [s_calls s_pipe cnt] in A. destruct pipe; [congruence|]. rewrite zlen_cons in A. pose proof (zlen_nonneg pipe). lia.
  - assert (INV : forall ps', able_in (mksock (c :: cs) ps pipe) -> is_move c = false -> Forall (eq Ready) ps' -> zlen ps - (if is_again c then 1 else 0) = zlen ps' -> able_in (mksock cs ps' pipe)).
    { intros ps' (A1 & A2 & A3 & A4) M F L. cbn [s_calls s_polls s_pipe cnt] in *. rewrite M in *. inversion A1; subst. split; [auto|]. split; [auto|]. cbn [s_calls s_polls s_pipe]. split; [lia|]. destruct (is_again c); lia. }
    destruct c.
    + cbv zeta. set (k := Z.min n (Z.min size (zlen pipe))). destruct (k <=? 0) eqn:E.
      * cbn [s_calls length]. split; [lia|]. right. split; [unfold KNOT_ECONN; lia|]. intros ((A1 & _) & B & C). inversion A1 as [|? ? C1 C2]; subst x l. cbn [okcall] in C1. assert (0 < zlen pipe) by (destruct pipe; [congruence|rewrite zlen_cons; pose proof (zlen_nonneg pipe); lia]). subst k. lia.
      * cbn [s_calls length s_pipe]. split; [lia|]. left. assert (0 < k <= zlen pipe /\ k <= size) by (subst k; lia). split; [lia|]. split; [rewrite zlen_zfirstn; lia|]. split; [lia|]. split; [apply zfirstn_skipn|].
        intros (A1 & A2 & A3 & A4). cbn [s_calls s_polls s_pipe cnt is_move is_again] in *. inversion A1; subst. split; [auto|]. split; [auto|]. cbn [s_calls s_polls s_pipe]. rewrite zlen_zskipn by lia. lia.
    + specialize (IH ps pipe size). assert (AB : able_in (mksock (Intr :: cs) ps pipe) -> able_in (mksock cs ps pipe)). { intros A. apply (INV ps A); auto. - destruct A as (_ & A & _). exact A. - cbn [is_again]. lia. }
      destruct (io_recv cs ps pipe size) as [[[ret d] s]| | |]; try tauto. destruct IH as [L G]. cbn [length]. split; [lia|]. tauto.
    + destruct (io_wait_total ps) as [(r & ps' & EW)|EW]; rewrite EW; cbn [rbind].
      * destruct (r =? KNOT_EOK) eqn:ER.
        -- assert (AB : able_in (mksock (Again :: cs) ps pipe) -> able_in (mksock cs ps' pipe)).
           { intros A. pose proof A as (A1 & A2 & A3 & A4). cbn [s_calls s_polls cnt is_again] in *. pose proof (cnt_nonneg _ is_again cs). destruct (io_wait_able ps A2 ltac:(lia)) as (ps2 & E2 & B1 & B2). rewrite EW in E2. injection E2 as _ ->. apply (INV ps2 A); auto; cbn [is_again]; lia. }
           specialize (IH ps' pipe size). destruct (io_recv cs ps' pipe size) as [[[ret d] s]| | |]; try tauto. destruct IH as [L G]. cbn [length]. split; [lia|]. tauto.
        -- cbn [s_calls length]. split; [lia|]. right. split; [destruct (io_wait_code ps r ps' EW) as [->|[->| ->]]; try (vm_compute in ER; discriminate ER); unfold KNOT_ETIMEOUT, KNOT_ECONN; lia|].
           intros (A & _). pose proof A as (A1 & A2 & A3 & A4). cbn [s_calls s_polls cnt is_again] in *. pose proof (cnt_nonneg _ is_again cs). destruct (io_wait_able ps A2 ltac:(lia)) as (ps2 & E2 & B1 & B2). rewrite EW in E2. injection E2 as -> _. vm_compute in ER. discriminate ER.
      * split; [reflexivity|]. intros (A & _). pose proof A as (A1 & A2 & A3 & A4). cbn [s_calls s_polls cnt is_again] in *. pose proof (cnt_nonneg _ is_again cs). destruct (io_wait_able ps A2 ltac:(lia)) as (ps2 & E2 & B1 & B2). rewrite EW in E2. discriminate E2.
    + cbn [s_calls length]. split; [lia|]. right. split; [unfold KNOT_ECONN; lia|]. intros ((A1 & _) & _). inversion A1; subst. auto.
Qed.

Definition avail (c : ctl) : Z := w_size (c_wire c) - w_pos (c_wire c).

Lemma fill_ok : forall fuel bs s w b old len, (length (s_calls s) < fuel)%nat -> bs < 2 ^ 63 -> len <= bs -> zlen b <= bs ->
  gives (fill fuel bs s w b old len) (able_in s /\ len <= zlen b + zlen (s_pipe s))
    (fun c' => receiving bs c' (b ++ s_pipe s) /\ len <= avail c' /\ (able_in s -> rin c')).
Proof.
  induction fuel as [|fuel IH]; intros bs s w b old len HF HB HL Hb; [lia|]. cbn [fill]. destruct (zlen b <? len) eqn:E.
  - unfold net_stream_recv. destruct s as [cs ps pipe]. cbn [s_calls s_polls s_pipe] in *. pose proof (io_recv_ok cs ps pipe (bs - zlen b)) as G.
    destruct (io_recv cs ps pipe (bs - zlen b)) as [[[ret d] s]|e| |]; cbn [rbind].
    + destruct G as [GL [(G1 & G2 & G3 & G4 & G5)|(G1 & G2)]].
      * replace (ret <? 0) with false by lia. replace (ret >? 0) with true by lia. cbn [negb]. eapply gives_weaken; [apply (IH bs s w (b ++ d) old len); [lia|auto|auto|rewrite zlen_app; lia]| |].
        -- intros [A B]. split; [auto|]. rewrite <- G4 in B. rewrite !zlen_app in *. lia.
        -- intros c' (Q1 & Q2 & Q3). rewrite <- app_assoc, G4 in Q1. auto.
      * replace (ret <? 0) with true by lia. cbn [gives]. replace (ret =? KNOT_EOK) with false by (unfold KNOT_EOK; lia). intros [A B]. apply G2. split; [auto|]. split; [intros ->; rewrite zlen_nil in B; lia|lia].
    + destruct G as [G1 G2]. unfold blocked in G1. injection G1 as ->. cbn [gives]. split; [auto|]. intros [A B]. apply G2. split; [auto|]. split; [intros ->; rewrite zlen_nil in B; lia|lia].
    + destruct G as [G1 _]. discriminate G1.
    + destruct G as [G1 _]. discriminate G1.
  - cbn [gives]. change (KNOT_EOK =? KNOT_EOK) with true. cbv iota. unfold wire_init, avail, rin. cbn [c_wire c_sock w_pos]. unfold w_size. cbn [w_buf]. split; [|split; [lia|auto]].
    exists [], b. cbn [c_wire c_sock app]. split; [split; [auto|]; split; [auto|]; split; [auto|]; cbn [app]; lia|]. rewrite zlen_nil. split; [lia|auto].
Qed.

Lemma ensure_input_ok : forall bs c S len, bs < 2 ^ 63 -> 0 <= len <= bs -> receiving bs c S ->
  gives (ensure_input bs c len) (rin c /\ len <= zlen S)
    (fun c' => receiving bs c' S /\ len <= avail c' /\ (rin c -> rin c')).
Proof.
  intros bs c S len HB HL HR. pose proof HR as (pre & post & HA & HS & HE). destruct (at_wf _ _ _ HA) as [W SZ]. pose proof HA as (A1 & A2 & A3 & A4). unfold ensure_input. cbv zeta. rewrite wf_avail, wf_offset by auto.
  destruct (w_size (c_wire c) - w_pos (c_wire c) >=? len) eqn:E.
  - cbn [gives]. change (KNOT_EOK =? KNOT_EOK) with true. cbv iota. split; [auto|]. unfold avail. split; [lia|auto].
  - pose proof (zlen_nonneg pre). pose proof (zlen_nonneg post). rewrite mem_read_ok by (rewrite ?A1, ?zlen_app; lia). cbn [rbind]. rewrite A2, A1, zskipn_app_exact, zfirstn_all by lia. rewrite <- HE.
    eapply gives_weaken; [apply fill_ok; [lia|auto|lia|lia]| |auto]. unfold rin. rewrite zlen_app. auto.
Qed.

(** the same as [gives] for functions which give one more value *)
Definition gives2 {X A} (r : res (Z * X * A)) (G : Prop) (P : X -> A -> Prop) : Prop :=
  match r with
  | Ok (ret, x, a) => if ret =? KNOT_EOK then P x a else ~ G
  | Err e => e = KNOT_EAGAIN /\ ~ G
  | UB | OOF => False
  end.
Lemma gives2_bind : forall X A B (r : res (Z * A)) (f : A -> res (Z * X * B)) (x : X) (e : A -> B) (G G1 : Prop) P Q,
  gives r G1 P -> (G -> G1) -> (forall a, P a -> gives2 (f a) G Q) ->
  gives2 (let* (ret, a) := r in if negb (ret =? KNOT_EOK) then Ok (ret, x, e a) else f a) G Q.
Proof. intros X A B r f x e G G1 P Q H1 HG H2. destruct r as [[ret a]| | |]; cbn [rbind gives gives2] in *; auto; [|tauto]. destruct (ret =? KNOT_EOK) eqn:E; cbn [negb]; auto. cbn [gives2]. rewrite E. auto. Qed.

Lemma read_ok : forall bs c S n, receiving bs c S -> 0 <= n <= avail c ->
  exists d w, wire_read (c_wire c) n = Ok (d, w) /\ w_err w = KNOT_EOK /\ zlen d = n /\ exists S', S = d ++ S' /\ receiving bs (mkctl (c_sock c) w) S' /\
    (n = 1 -> exists w', wire_skip w (-1) = Ok w' /\ w_err w' = KNOT_EOK /\ receiving bs (mkctl (c_sock c) w') S).
Proof.
  intros bs c S n (pre & post & HA & HS & HE) HN. destruct (at_wf _ _ _ HA) as [W SZ]. unfold avail in HN. pose proof HA as (A1 & A2 & A3 & A4).
  assert (HP : zlen (zfirstn n post) = n) by (apply zlen_zfirstn; lia).
  assert (HA' : at_ (c_wire c) pre (zfirstn n post ++ zskipn n post)) by (rewrite zfirstn_skipn; auto).
  destruct (c48_read _ _ _ _ HA') as (w & E & AT). rewrite HP in E. exists (zfirstn n post), w. split; [auto|]. pose proof AT as (B1 & B2 & B3 & B4). split; [auto|]. split; [auto|].
  exists (zskipn n post ++ s_pipe (c_sock c)). split; [rewrite app_assoc, zfirstn_skipn; auto|].
  assert (HL : zlen (zskipn n post) = zlen post - n) by (apply zlen_zskipn; lia). split.
  - exists (pre ++ zfirstn n post), (zskipn n post). cbn [c_wire c_sock]. split; [auto|]. rewrite zlen_app, HP, HL. split; [lia|auto].
  - intros ->. destruct (at_wf _ _ _ AT) as [W2 _]. unfold wire_skip. rewrite B3. change (KNOT_EOK =? KNOT_EOK) with true. cbn [negb]. change (-1 >=? 0) with false. change (-1 =? - 2 ^ 63) with false. cbv iota. rewrite wf_offset, B2 by auto. rewrite zlen_app, HP. pose proof (zlen_nonneg pre). replace (- -1 >? zlen pre + 1) with false by lia.
    eexists. split; [reflexivity|]. split; [auto|]. exists pre, (zfirstn 1 post ++ zskipn 1 post). unfold set_pos. cbn [c_wire c_sock]. split; [split; [rewrite B1, <- app_assoc; auto|]; split; [cbn [w_pos]; lia|]; split; [auto|]; rewrite <- app_assoc in B4; auto|]. rewrite zlen_app, HP, HL. split; [lia|]. rewrite zfirstn_skipn. auto.
Qed.

Lemma code_ok : forall bs c S, 1 <= bs < 2 ^ 63 -> receiving bs c S ->
  gives2 (receive_item_code bs c) (rin c /\ S <> [])
    (fun code c' => exists S', S = code :: S' /\ receiving bs c' S' /\ (rin c -> rin c') /\
      exists w', wire_skip (c_wire c') (-1) = Ok w' /\ w_err w' = KNOT_EOK /\ receiving bs (mkctl (c_sock c') w') S).
Proof.
  intros bs c S HB HR. unfold receive_item_code. eapply gives2_bind with (e := fun c => c).
  - apply (ensure_input_ok bs c S 1); auto; lia.
  - intros [A B]. split; [auto|]. destruct S; [congruence|]. rewrite zlen_cons. pose proof (zlen_nonneg S). lia.
  - intros c1 (Q1 & Q2 & Q3). destruct (read_ok bs c1 S 1 Q1 ltac:(lia)) as (d & w & E & EE & HD & S' & ES & R & BK). unfold wire_read_u8. rewrite E. cbn [rbind]. cbv zeta. rewrite EE. change (KNOT_EOK =? KNOT_EOK) with true. cbn [negb gives2]. change (KNOT_EOK =? KNOT_EOK) with true. cbv iota.
    destruct d as [|x [|y d]]; [discriminate HD| |rewrite !zlen_cons in HD; pose proof (zlen_nonneg d); lia]. exists S'. split; [exact ES|]. split; [exact R|]. split; [exact Q3|]. cbn [c_wire c_sock]. apply BK. auto.
Qed.

Lemma value_ok : forall al bs c S R v X, 2 <= bs < 2 ^ 63 -> zlen v <= 65535 -> zlen v <= bs -> receiving bs c S -> S ++ R = be 2 (zlen v) ++ v ++ X ->
  gives2 (receive_item_value al bs c) (rin c /\ R = [] /\ (forall n, al n = true))
    (fun v' c' => v' = v /\ exists S', receiving bs c' S' /\ S' ++ R = X /\ zlen S' < zlen S /\ (rin c -> rin c')).
Proof.
  intros al bs c S R v X HB HV HVb HR HE. unfold receive_item_value. pose proof (zlen_nonneg v). pose proof (be_length 2 (zlen v)) as L2. change (Z.of_nat 2) with 2 in L2.
  eapply gives2_bind with (e := fun c => c); [apply (ensure_input_ok bs c S 2); [lia|lia|auto]| |].
  { intros (A & -> & _). split; [auto|]. rewrite app_nil_r in HE. rewrite HE, zlen_app, L2. pose proof (zlen_nonneg (v ++ X)). lia. }
  intros c1 (Q1 & Q2 & Q3). destruct (read_ok bs c1 S 2 Q1 ltac:(lia)) as (d & w & E & EE & HD & S1 & ES & R1 & _). unfold wire_read_u16. rewrite E. cbn [rbind]. cbv zeta. rewrite EE. change (KNOT_EOK =? KNOT_EOK) with true. cbn [negb].
  subst S. rewrite <- app_assoc in HE. destruct (app_inj_len d (S1 ++ R) (be 2 (zlen v)) (v ++ X) ltac:(lia) HE) as [-> HE1]. rewrite unbe_be. change (256 ^ Z.of_nat 2) with 65536. rewrite Z.mod_small by lia.
  set (c2 := mkctl (c_sock c1) w) in *. eapply gives2_bind with (e := fun c => c); [apply (ensure_input_ok bs c2 S1 (zlen v)); [lia|lia|auto]| |].
  { intros (A & -> & _). split; [apply Q3; auto|]. rewrite app_nil_r in HE1. rewrite HE1, zlen_app. pose proof (zlen_nonneg X). lia. }
  intros c3 (P1 & P2 & P3). destruct (al (zlen v + 1)) eqn:EA; cbn [negb].
  - destruct (read_ok bs c3 S1 (zlen v) P1 ltac:(lia)) as (d & w3 & E3 & EE3 & HD3 & S2 & ES2 & R2 & _). rewrite E3. cbn [rbind]. cbv zeta. rewrite EE3. change (KNOT_EOK =? KNOT_EOK) with true. cbn [negb gives2]. change (KNOT_EOK =? KNOT_EOK) with true. cbv iota.
    subst S1. rewrite <- app_assoc in HE1. destruct (app_inj_len d (S2 ++ R) v X ltac:(lia) HE1) as [-> HE2]. split; [auto|]. exists S2. split; [auto|]. split; [auto|]. rewrite !zlen_app, L2. split; [lia|]. intros A. apply P3, Q3, A.
  - cbn [gives2]. change (KNOT_ENOMEM =? KNOT_EOK) with false. cbv iota. intros (_ & _ & A). rewrite A in EA. discriminate EA.
Qed.

Definition gives4 {X Y A} (r : res (Z * X * Y * A)) (G : Prop) (P : X -> Y -> A -> Prop) : Prop :=
  match r with
  | Ok (ret, x, y, a) => if ret =? KNOT_EOK then P x y a else ~ G
  | Err e => e = KNOT_EAGAIN /\ ~ G
  | UB | OOF => False
  end.
Lemma gives4_bind : forall X Y Z1 A B (r : res (Z * X * A)) (f : X -> A -> res (Z * Y * Z1 * B)) (y : Y) (z : Z1) (e : A -> B) (G G1 : Prop) P Q,
  gives2 r G1 P -> (G -> G1) -> (forall x a, P x a -> gives4 (f x a) G Q) ->
  gives4 (let* (ret, x, a) := r in if negb (ret =? KNOT_EOK) then Ok (ret, y, z, e a) else f x a) G Q.
Proof. intros X Y Z1 A B r f y z e G G1 P Q H1 HG H2. destruct r as [[[ret x] a]| | |]; cbn [rbind gives2 gives4] in *; auto; [|tauto]. destruct (ret =? KNOT_EOK) eqn:E; cbn [negb]; auto. cbn [gives4]. rewrite E. auto. Qed.

(** nothing, or the beginning of a unit *)
Definition next_unit (X : list Z) : Prop := match X with [] => True | c :: _ => 0 <= c <= 3 end.

Lemma zset_mid : forall A (l1 l2 : list A) x y, zset (l1 ++ x :: l2) (zlen l1) y = l1 ++ y :: l2.
Proof. intros. unfold zset. rewrite zfirstn_app_exact. f_equal. f_equal. change (l1 ++ x :: l2) with (l1 ++ [x] ++ l2). rewrite app_assoc. replace (zlen l1 + 1) with (zlen (l1 ++ [x])) by (rewrite zlen_app; reflexivity). apply zskipn_app_exact. Qed.

Lemma cons_inv : forall A (a b : A) l m, a :: l = b :: m -> a = b /\ l = m.
Proof. intros A a b l m H. injection H. auto. Qed.

Lemma loop_ok : forall d fuel al bs c S R X t acc, 2 <= bs < 2 ^ 63 -> zlen S < Z.of_nat fuel -> Forall (fits bs) d -> zlen acc + zlen d <= IDX_COUNT -> next_unit X ->
  receiving bs c S -> S ++ R = values (zlen acc) d ++ X ->
  gives4 (receive_loop fuel al bs c true t (acc ++ repeat None (length d))) (rin c /\ R = [] /\ (forall n, al n = true) /\ X <> [])
    (fun t' d' c' => t' = t /\ d' = acc ++ d /\ X <> [] /\ exists S', receiving bs c' S' /\ S' ++ R = X /\ (rin c -> rin c')).
Proof.
  induction d as [|v d IH]; intros fuel al bs c S R X t acc HB HF HD HL HX HR HE.
  - destruct fuel as [|fuel]; [pose proof (zlen_nonneg S); lia|]. cbn [receive_loop values repeat length app] in *.
    eapply gives4_bind with (e := fun c => c); [apply (code_ok bs c S); [lia|auto]| |].
    { intros (A & -> & _ & B). split; [auto|]. rewrite app_nil_r in HE. congruence. }
    intros code c1 (S' & -> & R1 & K1 & w' & BK & BE & BR). cbn [app] in HE. subst X. cbn [next_unit] in HX. cbv zeta.
    assert (T : code_to_type code =? -1 = false). { unfold code_to_type, CTL_END, CTL_DATA, CTL_EXTRA, CTL_BLOCK. destruct (code =? 0) eqn:E0; [reflexivity|]. destruct (code =? 1) eqn:E1; [reflexivity|]. destruct (code =? 2) eqn:E2; [reflexivity|]. destruct (code =? 3) eqn:E3; [reflexivity|]. lia. }
    rewrite T. cbn [negb]. rewrite BK. cbn [rbind]. rewrite BE. change (KNOT_EOK =? KNOT_EOK) with true. cbn [negb gives4]. change (KNOT_EOK =? KNOT_EOK) with true. cbv iota.
    split; [auto|]. split; [auto|]. split; [discriminate|]. exists (code :: S'). split; [auto|]. split; auto.
  - inversion HD as [|? ? D1 D2]; subst x l. rewrite zlen_cons in HL. pose proof (zlen_nonneg d). destruct v as [v|]; cbn [values] in HE.
    + destruct fuel as [|fuel]; [pose proof (zlen_nonneg S); lia|]. cbn [receive_loop]. pose proof (zlen_nonneg acc).
      eapply gives4_bind with (e := fun c => c); [apply (code_ok bs c S); [lia|auto]| |].
      { intros (A & -> & _ & B). split; [auto|]. rewrite app_nil_r in HE. intros ->. discriminate HE. }
      intros code c1 (S' & -> & R1 & K1 & _). unfold item in HE. cbn [app] in HE. apply cons_inv in HE. destruct HE as [-> HE]. cbv zeta. unfold IDX_COUNT in HL.
      assert (T : code_to_type (DATA_CODE_OFFSET + zlen acc) = -1). { unfold code_to_type, DATA_CODE_OFFSET. replace (16 + zlen acc =? 0) with false by lia. replace (16 + zlen acc =? 1) with false by lia. replace (16 + zlen acc =? 2) with false by lia. replace (16 + zlen acc =? 3) with false by lia. auto. }
      assert (I : code_to_idx (DATA_CODE_OFFSET + zlen acc) = zlen acc). { unfold code_to_idx, DATA_CODE_OFFSET, IDX_COUNT. replace ((16 + zlen acc <? 16) || (16 + zlen acc >=? 16 + 12)) with false by lia. lia. }
      rewrite T, I. change (-1 =? -1) with true. cbn [negb]. replace (zlen acc =? -1) with false by lia. rewrite <- !app_assoc in HE. rewrite zlen_cons in HF. destruct D1 as [D3 D4].
      eapply gives4_bind with (e := fun c => c); [apply (value_ok al bs c1 S' R v (values (zlen acc + 1) d ++ X)); auto| |].
      { intros (A & -> & B & _). auto. }
      intros v' c2 (-> & S2 & R2 & E2 & L2 & K2). cbn [length repeat]. rewrite zset_mid. replace (acc ++ Some v :: repeat None (length d)) with ((acc ++ [Some v]) ++ repeat None (length d)) by (rewrite <- app_assoc; reflexivity).
      assert (LA : zlen (acc ++ [Some v]) = zlen acc + 1) by (rewrite zlen_app; reflexivity).
      pose proof (IH fuel al bs c2 S2 R X t (acc ++ [Some v]) HB ltac:(lia) D2 ltac:(unfold IDX_COUNT; lia) HX R2 ltac:(rewrite LA; exact E2)) as G.
      destruct (receive_loop fuel al bs c2 true t ((acc ++ [Some v]) ++ repeat None (length d))) as [[[[ret t'] d'] c']| | |]; cbn [gives4] in *; auto.
      * destruct (ret =? KNOT_EOK).
        -- destruct G as (G1 & G2 & G3 & S3 & G4 & G5 & G6). split; [auto|]. rewrite <- app_assoc in G2. split; [auto|]. split; [auto|]. exists S3. split; [auto|]. split; [auto|]. intros A; apply G6, K2, K1, A.
        -- tauto.
      * tauto.
    + cbn [length repeat]. replace (acc ++ None :: repeat None (length d)) with ((acc ++ [None]) ++ repeat None (length d)) by (rewrite <- app_assoc; reflexivity).
      assert (LA : zlen (acc ++ [@None (list Z)]) = zlen acc + 1) by (rewrite zlen_app; reflexivity). replace (acc ++ None :: d) with ((acc ++ [None]) ++ d) by (rewrite <- app_assoc; reflexivity).
      apply (IH fuel al bs c S R X t (acc ++ [None])); auto; [lia|rewrite LA; exact HE].
Qed.

(** the bytes of one unit *)
Definition encode (t : Z) (d : data) : list Z := t :: (if is_data_type t then values 0 d else []).
Definition unit_ok (bs : Z) (t : Z) (d : data) : Prop := 0 <= t <= 3 /\ zlen d = IDX_COUNT /\ Forall (fits bs) d.

Lemma ctl_send_ok : forall bs c S t d k, 2 <= bs < 2 ^ 63 -> unit_ok bs t d -> sending bs c S -> 0 <= k ->
  gives (ctl_send c t (Some d)) (able c (zlen (encode t d) + k))
    (fun c' => sending bs c' (S ++ encode t d) /\ (is_data_type t = false -> buffered c' = 0) /\ (able c (zlen (encode t d) + k) -> able c' k)).
Proof.
  intros bs c S t d k HB (H1 & H2 & H3) HS HK. unfold ctl_send. cbv zeta. assert (E : type_to_code t = t) by (unfold type_to_code, CTL_END, CTL_DATA, CTL_EXTRA, CTL_BLOCK; destruct (t =? 0) eqn:E0; [lia|]; destruct (t =? 1) eqn:E1; [lia|]; destruct (t =? 2) eqn:E2; [lia|]; destruct (t =? 3) eqn:E3; lia).
  rewrite E. replace (t =? -1) with false by lia. unfold encode. rewrite zlen_cons. destruct (is_data_type t) eqn:ED; cbn [negb].
  - pose proof (zlen_nonneg (values 0 d)). replace (1 + zlen (values 0 d) + k) with (zlen (item t None) + (zlen (values 0 d) + k)) by (unfold item; change (zlen [t]) with 1; lia).
    eapply gives_bind with (e := fun _ c => c); [apply (send_item_ok bs c S t None false (zlen (values 0 d) + k)); auto; [lia|exact I|lia]|].
    intros c1 (Q1 & _ & Q3). unfold item in Q1. eapply gives_weaken; [apply (send_values_ok d bs c1 (S ++ [t]) 0 k); auto; lia|auto|].
    intros c2 (P1 & P2). rewrite <- app_assoc in P1. split; [auto|]. split; [discriminate|]. auto.
  - replace (1 + zlen (@nil Z) + k) with (zlen (item t None) + k) by reflexivity.
    eapply gives_bind with (e := fun _ c => c); [apply (send_item_ok bs c S t None true k); auto; [lia|exact I]|].
    intros c1 (Q1 & Q2 & Q3). cbn [gives]. change (KNOT_EOK =? KNOT_EOK) with true. cbv iota. split; [auto|]. split; auto.
Qed.

Lemma ctl_receive_ok : forall al bs c S R X t d, 2 <= bs < 2 ^ 63 -> unit_ok bs t d -> next_unit X -> receiving bs c S -> S ++ R = encode t d ++ X ->
  gives4 (ctl_receive al bs c) (rin c /\ R = [] /\ (forall n, al n = true) /\ (is_data_type t = true -> X <> []))
    (fun t' d' c' => t' = t /\ d' = (if is_data_type t then d else no_data) /\ exists S', receiving bs c' S' /\ S' ++ R = X /\ (rin c -> rin c')).
Proof.
  intros al bs c S R X t d HB (H1 & H2 & H3) HX HR HE. unfold ctl_receive. set (fuel := (length (w_buf (c_wire c)) + length (s_pipe (c_sock c)))%nat).
  assert (HF : zlen S <= Z.of_nat fuel). { destruct HR as (pre & post & (A1 & _) & _ & HS). subst fuel. rewrite A1, <- HS. rewrite app_length. unfold zlen. rewrite app_length. lia. }
  change (receive_loop (Datatypes.S (Datatypes.S fuel)) al bs c false CTL_END no_data) with
   (let* (ret, code, c) := receive_item_code bs c in
    if negb (ret =? KNOT_EOK) then Ok (ret, CTL_END, no_data, c) else
    let cur := code_to_type code in
    if negb (cur =? -1) then
      if is_data_type cur then receive_loop (Datatypes.S fuel) al bs c true cur no_data else Ok (KNOT_EOK, cur, no_data, c)
    else
      let idx := code_to_idx code in
      if idx =? -1 then Ok (KNOT_EINVAL, CTL_END, no_data, c) else
      let* (ret, v, c) := receive_item_value al bs c in
      if negb (ret =? KNOT_EOK) then Ok (ret, CTL_END, no_data, c) else
      receive_loop (Datatypes.S fuel) al bs c false CTL_END (zset no_data idx (Some v))).
  unfold encode in HE. cbn [app] in HE.
  eapply gives4_bind with (e := fun c => c); [apply (code_ok bs c S); [lia|auto]| |].
  { intros (A & -> & _). split; [auto|]. rewrite app_nil_r in HE. intros ->. discriminate HE. }
  intros code c1 (S' & -> & R1 & K1 & _). cbn [app] in HE. injection HE as -> HE. cbv zeta. rewrite zlen_cons in HF.
  assert (E : code_to_type t = t) by (unfold code_to_type, CTL_END, CTL_DATA, CTL_EXTRA, CTL_BLOCK; destruct (t =? 0) eqn:E0; [lia|]; destruct (t =? 1) eqn:E1; [lia|]; destruct (t =? 2) eqn:E2; [lia|]; destruct (t =? 3) eqn:E3; lia).
  rewrite E. replace (t =? -1) with false by lia. cbn [negb]. destruct (is_data_type t) eqn:ED.
  - assert (LN : no_data = [] ++ repeat None (length d)). { unfold no_data. replace (length d) with 12%nat; [reflexivity|]. unfold zlen, IDX_COUNT in H2. lia. }
    rewrite LN. pose proof (loop_ok d (Datatypes.S fuel) al bs c1 S' R X t [] HB ltac:(lia) H3 ltac:(rewrite zlen_nil; lia) HX R1 HE) as G.
    destruct (receive_loop (Datatypes.S fuel) al bs c1 true t ([] ++ repeat None (length d))) as [[[[ret t'] d'] c']| | |]; cbn [gives4] in *; auto.
    + destruct (ret =? KNOT_EOK); [|tauto]. destruct G as (G1 & G2 & G3 & S3 & G4 & G5 & G6). split; [auto|]. split; [auto|]. exists S3. auto.
    + tauto.
  - cbn [gives4]. change (KNOT_EOK =? KNOT_EOK) with true. cbv iota. split; [auto|]. split; [auto|]. exists S'. auto.
Qed.
