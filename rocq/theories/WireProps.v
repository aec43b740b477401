(** C48: the bounded buffer. [buffer w] is split by the position into what lies before and after. *)
From Verif Require Import Base WireModel WireProofs.

(** Operations of the interface (printf is treated separately below). *)
Inductive wop : Type :=
| WRead (n : Z) | WReadInt (bytes_ : Z) | WWrite (d : list Z) | WClear (n : Z) | WSeek (off : Z) | WSkip (off : Z).
Definition wop_ok (o : wop) : Prop :=
  match o with
  | WRead n => 0 <= n < 2 ^ 64 | WReadInt k => In k [1; 2; 4; 6; 8] | WWrite d => bytes d
  | WClear n => 0 <= n < 2 ^ 64 | WSeek off => 0 <= off < 2 ^ 64 | WSkip off => - 2 ^ 63 < off < 2 ^ 63
  end.
Definition read_int (k : Z) (w : wire) : res (Z * wire) :=
  if k =? 1 then wire_read_u8 w else if k =? 2 then wire_read_u16 w else if k =? 4 then wire_read_u32 w
  else if k =? 6 then wire_read_u48 w else wire_read_u64 w.
(** executes one operation; the list is what a read returned *)
Definition exec1 (o : wop) (w : wire) : res (list Z * wire) :=
  match o with
  | WRead n => wire_read w n
  | WReadInt k => let* (v, w) := read_int k w in Ok ([v], w)
  | WWrite d => let* w := wire_write w d in Ok ([], w)
  | WClear n => let* w := wire_clear w n in Ok ([], w)
  | WSeek off => Ok ([], wire_set_offset w off)
  | WSkip off => let* w := wire_skip w off in Ok ([], w)
  end.
Fixpoint exec (os : list wop) (w : wire) : res wire :=
  match os with [] => Ok w | o :: os => let* (_, w) := exec1 o w in exec os w end.

Ltac wfin := unfold wf, w_size in *; cbn [set_err set_pos w_buf w_pos w_ro w_err] in *; repeat split; intros; auto; try congruence; try lia.
Lemma read_defined : forall w n, wf w -> 0 <= n -> exists d w', wire_read w n = Ok (d, w') /\ wf w' /\ zlen d = n /\ w_buf w' = w_buf w /\ w_ro w' = w_ro w /\
  (w_err w <> KNOT_EOK -> w' = w /\ d = zeros n).
Proof.
  intros w n H Hn. pose proof H as [H1 H2]. unfold wire_read, wire_can_read. rewrite wf_avail by auto.
  destruct (w_err w =? KNOT_EOK) eqn:E; cbn [negb].
  - destruct (w_size w - w_pos w <? n) eqn:E2; cbn [Z.eqb negb].
    + change (KNOT_EFEWDATA =? KNOT_EOK) with false. cbn [negb]. eexists _, _. split; [reflexivity|]. split; [split; auto|]. split; [apply zlen_zeros; auto|]. split; [auto|]. split; [auto|]. lia.
    + change (KNOT_EOK =? KNOT_EOK) with true. cbn [negb]. unfold w_size in *. rewrite mem_read_ok by lia. cbn [rbind]. eexists _, _. split; [reflexivity|].
      split; [split; unfold w_size; cbn [set_pos w_pos w_buf]; lia|]. split; [rewrite zlen_zfirstn; [auto|rewrite zlen_zskipn; lia]|]. split; [auto|]. split; [auto|]. lia.
  - exists (zeros n), w. split; [auto|]. split; [auto|]. split; [apply zlen_zeros; auto|]. auto.
Qed.
Lemma write_defined : forall w d, wf w -> exists w', wire_write w d = Ok w' /\ wf w' /\ w_size w' = w_size w /\ w_ro w' = w_ro w /\
  (w_err w <> KNOT_EOK -> w' = w) /\ (w_ro w = true -> w_buf w' = w_buf w).
Proof.
  intros w d H. pose proof H as [H1 H2]. unfold wire_write, wire_can_write. rewrite wf_avail by auto. pose proof (zlen_nonneg d).
  destruct (w_err w =? KNOT_EOK) eqn:E; cbn [negb]; [|exists w; auto 6].
  destruct (zlen d =? 0) eqn:E0; [exists w; auto 6|].
  destruct (w_ro w) eqn:Er; [change (KNOT_EACCES =? KNOT_EOK) with false; cbn [negb]; eexists; split; [reflexivity|]; wfin|].
  destruct (w_size w - w_pos w <? zlen d) eqn:E2.
  - change (KNOT_ESPACE =? KNOT_EOK) with false; cbn [negb]; eexists; split; [reflexivity|]; wfin.
  - change (KNOT_EOK =? KNOT_EOK) with true; cbn [negb]. unfold w_size in *.
    destruct (mem_write (w_buf w) (w_pos w) d) as [b| | |] eqn:Em; [|exfalso; rewrite mem_write_ok in Em by lia; discriminate..].
    pose proof (mem_write_len _ _ _ _ Em). cbn [rbind]. eexists; split; [reflexivity|]. wfin.
Qed.
Lemma exec1_defined : forall o w, wf w -> wop_ok o -> exists r w', exec1 o w = Ok (r, w') /\ wf w' /\ w_size w' = w_size w /\ w_ro w' = w_ro w /\
  (w_err w <> KNOT_EOK -> w' = w) /\ (w_ro w = true -> w_buf w' = w_buf w).
Proof.
  intros o w H Ho. pose proof H as [H1 H2]. destruct o as [n|k|d|n|off|off]; cbn [exec1 wop_ok] in *.
  - destruct (read_defined w n H) as (d & w' & -> & W & L & B & R & E); [lia|]. exists d, w'. unfold w_size. rewrite B. split; [auto|]. split; [auto|]. repeat split; auto. intros; apply E; auto.
  - assert (G : forall n f, 0 <= n -> exists r w', (let* (v, w0) := (let* (d, w) := wire_read w n in Ok (f d : Z, w)) in Ok ([v], w0)) = Ok (r, w') /\ wf w' /\ w_size w' = w_size w /\ w_ro w' = w_ro w /\
      (w_err w <> KNOT_EOK -> w' = w) /\ (w_ro w = true -> w_buf w' = w_buf w)).
    { intros n f Hn. destruct (read_defined w n H Hn) as (d & w' & -> & W & L & B & R & E). cbn [rbind]. eexists _, _. split; [reflexivity|]. unfold w_size. rewrite B. repeat split; auto; try apply W. intros; apply E; auto. }
    unfold read_int, wire_read_u8, wire_read_u16, wire_read_u32, wire_read_u48, wire_read_u64.
    destruct (k =? 1); [apply G; lia|]. destruct (k =? 2); [apply G; lia|]. destruct (k =? 4); [apply G; lia|]. destruct (k =? 6); apply (G _ (fun d => _)); lia.
  - destruct (write_defined w d H) as (w' & -> & W). exists [], w'. auto.
  - unfold wire_clear, wire_can_write. rewrite wf_avail by auto.
    destruct (w_err w =? KNOT_EOK) eqn:E; cbn [negb]; [|exists [], w; cbn [rbind]; auto 8].
    destruct (n =? 0) eqn:E0; [exists [], w; cbn [rbind]; auto 8|].
    destruct (w_ro w) eqn:Er; [change (KNOT_EACCES =? KNOT_EOK) with false; cbn [negb rbind]; eexists _, _; split; [reflexivity|]; wfin|].
    destruct (w_size w - w_pos w <? n) eqn:E2.
    + change (KNOT_ESPACE =? KNOT_EOK) with false; cbn [negb rbind]; eexists _, _; split; [reflexivity|]; wfin.
    + change (KNOT_EOK =? KNOT_EOK) with true; cbn [negb]. unfold w_size in *.
      destruct (mem_write (w_buf w) (w_pos w) (zeros n)) as [b| | |] eqn:Em; [|exfalso; rewrite mem_write_ok in Em by (rewrite ?zlen_zeros; lia); discriminate..].
      pose proof (mem_write_len _ _ _ _ Em). cbn [rbind]. eexists _, _; split; [reflexivity|]. wfin.
  - exists [], (wire_set_offset w off). split; [auto|]. unfold wire_set_offset. destruct (w_err w =? KNOT_EOK) eqn:E; cbn [negb]; [|auto 8].
    destruct (off >? w_size w) eqn:E2; wfin.
  - unfold wire_skip. rewrite wf_avail, wf_offset by auto. destruct (w_err w =? KNOT_EOK) eqn:E; cbn [negb]; [|exists [], w; cbn [rbind]; auto 8].
    destruct (off >=? 0) eqn:E1.
    + destruct (off >? w_size w - w_pos w) eqn:E2; cbn [rbind]; eexists _, _; (split; [reflexivity|]); wfin.
    + replace (off =? - 2 ^ 63) with false by lia.
      destruct (- off >? w_pos w) eqn:E2; cbn [rbind]; eexists _, _; (split; [reflexivity|]); wfin.
Qed.

(** No sequence of operations touches memory outside the buffer; the size never changes, and a
    context opened for reading is never written to. *)
Theorem c48_safe : forall os d (ro : bool), zlen d < 2 ^ 63 -> Forall wop_ok os ->
  exists w, exec os (if ro then wire_init_const d else wire_init d) = Ok w /\
    0 <= w_pos w <= zlen d /\ zlen (w_buf w) = zlen d /\ (ro = true -> w_buf w = d).
Proof.
  intros os d ro Hd HF.
  assert (G : forall os w, Forall wop_ok os -> wf w -> exists w', exec os w = Ok w' /\ wf w' /\ w_size w' = w_size w /\ (w_ro w = true -> w_buf w' = w_buf w)).
  { clear. induction os as [|o os IH]; intros w HF H; cbn [exec]; [exists w; auto|]. inversion HF; subst.
    destruct (exec1_defined o w H) as (r & w1 & -> & W1 & S1 & R1 & _ & B1); auto. cbn [rbind]. destruct (IH w1) as (w' & -> & W' & S' & B'); auto.
    exists w'. split; [auto|]. split; [auto|]. split; [congruence|]. intros Hr. rewrite B', B1; congruence. }
  destruct (G os (if ro then wire_init_const d else wire_init d) HF) as (w & E & [W1 W2] & S & B).
  { split; destruct ro; unfold w_size; cbn [wire_init wire_init_const w_buf w_pos]; pose proof (zlen_nonneg d); lia. }
  exists w. split; [auto|]. unfold w_size in *. destruct ro; cbn [wire_init wire_init_const w_buf w_ro] in *; repeat split; try lia; auto.
Qed.
(** After an error nothing changes any more, and reads return zeros. *)
Theorem c48_error_sticky : forall os w, wf w -> w_err w <> KNOT_EOK -> Forall wop_ok os -> exec os w = Ok w.
Proof.
  induction os as [|o os IH]; intros w H He HF; cbn [exec]; auto. inversion HF; subst.
  destruct (exec1_defined o w H) as (r & w1 & E1 & _ & _ & _ & E & _); auto. rewrite E1. cbn [rbind]. rewrite (E He). auto.
Qed.
Theorem c48_error_reads_zero : forall w n, wf w -> w_err w <> KNOT_EOK -> 0 <= n -> wire_read w n = Ok (zeros n, w).
Proof. intros w n H He Hn. destruct (read_defined w n H Hn) as (d & w' & -> & _ & _ & _ & _ & E). destruct (E He) as [-> ->]. auto. Qed.

(** A context at a position: [pre] lies before it, [post] behind it, no error so far. *)
Definition at_ (w : wire) (pre post : list Z) : Prop :=
  w_buf w = pre ++ post /\ w_pos w = zlen pre /\ w_err w = KNOT_EOK /\ zlen (pre ++ post) < 2 ^ 63.
Lemma at_wf : forall w pre post, at_ w pre post -> wf w /\ w_size w = zlen pre + zlen post.
Proof. intros w pre post (H1 & H2 & H3 & H4). unfold wf, w_size. rewrite H1, H2. rewrite zlen_app in *. pose proof (zlen_nonneg pre). pose proof (zlen_nonneg post). lia. Qed.
(** A write with enough room replaces exactly the following bytes; one without sets the error
    and changes nothing. *)
Theorem c48_write : forall w pre post d, at_ w pre post -> w_ro w = false ->
  (zlen d <= zlen post -> exists w', wire_write w d = Ok w' /\ at_ w' (pre ++ d) (zskipn (zlen d) post) /\ w_ro w' = false) /\
  (zlen d > zlen post -> wire_write w d = Ok (set_err w KNOT_ESPACE)).
Proof.
  intros w pre post d H Hro. destruct (at_wf _ _ _ H) as [W S]. destruct H as (H1 & H2 & H3 & H4). pose proof (zlen_nonneg d).
  unfold wire_write, wire_can_write. rewrite wf_avail, H3, Hro, S, H2 by auto. change (KNOT_EOK =? KNOT_EOK) with true. cbn [negb]. split; intros Hd.
  - destruct (zlen d =? 0) eqn:E0.
    + assert (d = []) as -> by (destruct d; auto; rewrite zlen_cons in *; pose proof (zlen_nonneg d); lia). exists w. rewrite app_nil_r. split; [auto|]. split; [split; auto|auto].
    + replace (_ <? zlen d) with false by lia. change (KNOT_EOK =? KNOT_EOK) with true. cbn [negb].
      rewrite mem_write_ok by (rewrite ?H1, ?zlen_app; try lia; apply zlen_nonneg). cbn [rbind].
      rewrite H1, zfirstn_app_exact. replace (zskipn (zlen pre + zlen d) (pre ++ post)) with (zskipn (zlen d) post).
      2:{ rewrite <- zskipn_zskipn by (auto; apply zlen_nonneg). rewrite zskipn_app_exact. auto. }
      eexists. split; [reflexivity|]. split; [|auto]. unfold at_. cbn [w_buf w_pos w_err]. rewrite app_assoc. split; [auto|]. split; [rewrite zlen_app; auto|]. split; [auto|].
      rewrite !zlen_app in *. rewrite zlen_zskipn by lia. lia.
  - replace (zlen d =? 0) with false by (pose proof (zlen_nonneg post); lia). replace (_ <? zlen d) with true by lia. reflexivity.
Qed.
(** A read returns exactly the following bytes. *)
Theorem c48_read : forall w pre d post, at_ w pre (d ++ post) ->
  exists w', wire_read w (zlen d) = Ok (d, w') /\ at_ w' (pre ++ d) post.
Proof.
  intros w pre d post H. destruct (at_wf _ _ _ H) as [W S]. destruct H as (H1 & H2 & H3 & H4). pose proof (zlen_nonneg d). pose proof (zlen_nonneg post). pose proof (zlen_nonneg pre).
  unfold wire_read, wire_can_read. rewrite wf_avail, H3, S, H2 by auto. change (KNOT_EOK =? KNOT_EOK) with true. cbn [negb].
  rewrite !zlen_app in *. replace (_ <? zlen d) with false by lia. change (KNOT_EOK =? KNOT_EOK) with true. cbn [negb].
  rewrite mem_read_ok by (rewrite ?H1, ?zlen_app; lia). cbn [rbind]. rewrite H1, zskipn_app_exact, zfirstn_app_exact.
  eexists. split; [reflexivity|]. unfold at_. cbn [set_pos w_buf w_pos w_err]. rewrite H1, app_assoc, !zlen_app. wfin.
Qed.
Theorem c48_read_past_end : forall w pre post n, at_ w pre post -> zlen post < n < 2 ^ 64 ->
  wire_read w n = Ok (zeros n, set_err w KNOT_EFEWDATA).
Proof.
  intros w pre post n H Hn. destruct (at_wf _ _ _ H) as [W S]. destruct H as (H1 & H2 & H3 & H4).
  unfold wire_read, wire_can_read. rewrite wf_avail, H3, S, H2 by auto. change (KNOT_EOK =? KNOT_EOK) with true. cbn [negb].
  replace (_ <? n) with true by lia. reflexivity.
Qed.

(** *** records of integers and data: what is written is read back *)
Inductive field : Type := F8 (v : Z) | F16 (v : Z) | F32 (v : Z) | F48 (v : Z) | F64 (v : Z) | FData (d : list Z).
Definition field_ok (f : field) : Prop :=
  match f with
  | F8 v => 0 <= v < 2 ^ 8 | F16 v => 0 <= v < 2 ^ 16 | F32 v => 0 <= v < 2 ^ 32 | F48 v => 0 <= v < 2 ^ 48 | F64 v => 0 <= v < 2 ^ 64
  | FData d => bytes d
  end.
Definition field_size (f : field) : Z :=
  match f with F8 _ => 1 | F16 _ => 2 | F32 _ => 4 | F48 _ => 6 | F64 _ => 8 | FData d => zlen d end.
Definition write_field (w : wire) (f : field) : res wire :=
  match f with
  | F8 v => wire_write_u8 w v | F16 v => wire_write_u16 w v | F32 v => wire_write_u32 w v
  | F48 v => wire_write_u48 w v | F64 v => wire_write_u64 w v | FData d => wire_write w d
  end.
(** reads a field of the same kind *)
Definition read_field (w : wire) (f : field) : res (field * wire) :=
  match f with
  | F8 _ => let* (v, w) := wire_read_u8 w in Ok (F8 v, w)
  | F16 _ => let* (v, w) := wire_read_u16 w in Ok (F16 v, w)
  | F32 _ => let* (v, w) := wire_read_u32 w in Ok (F32 v, w)
  | F48 _ => let* (v, w) := wire_read_u48 w in Ok (F48 v, w)
  | F64 _ => let* (v, w) := wire_read_u64 w in Ok (F64 v, w)
  | FData d => let* (d, w) := wire_read w (zlen d) in Ok (FData d, w)
  end.
Fixpoint write_fields (w : wire) (fs : list field) : res wire :=
  match fs with [] => Ok w | f :: fs => let* w := write_field w f in write_fields w fs end.
Fixpoint read_fields (w : wire) (fs : list field) : res (list field * wire) :=
  match fs with [] => Ok ([], w) | f :: fs => let* (g, w) := read_field w f in let* (gs, w) := read_fields w fs in Ok (g :: gs, w) end.
Definition fields_size (fs : list field) : Z := fold_right (fun f a => field_size f + a) 0 fs.

Definition field_bytes (f : field) : list Z :=
  match f with F8 v => be 1 v | F16 v => be 2 v | F32 v => be 4 v | F48 v => be 6 v | F64 v => be 8 v | FData d => d end.
Lemma be48 : forall v, 0 <= v < 2 ^ 48 -> zfirstn 6 (zskipn 1 (be 8 (u64 (Z.shiftl v 8)))) = be 6 v.
Proof.
  intros v Hv. rewrite Z.shiftl_mul_pow2 by lia. unfold u64. rewrite Z.mod_small by lia.
  cbv [zfirstn zskipn Z.to_nat Pos.to_nat Pos.iter_op be]. cbn [Nat.add firstn skipn Z.of_nat Pos.of_succ_nat Pos.succ].
  repeat (f_equal; try lia).
Qed.
Lemma unbe48 : forall d, bytes d -> zlen d = 6 -> Z.shiftr (unbe ([0] ++ d ++ [0])) 8 = unbe d.
Proof.
  intros d HB HL. rewrite !unbe_app. change (unbe [0]) with 0. change (zlen [0]) with 1. rewrite Z.shiftr_div_pow2 by lia.
  rewrite Z.mul_0_l, Z.add_0_l, Z.add_0_r. apply Z.div_mul. lia.
Qed.
Lemma field_bytes_size : forall f, zlen (field_bytes f) = field_size f.
Proof. intros [v|v|v|v|v|d]; cbn [field_bytes field_size]; try rewrite be_length; auto. Qed.
Lemma write_field_bytes : forall w f, field_ok f -> write_field w f = wire_write w (field_bytes f).
Proof. intros w [v|v|v|v|v|d] H; cbn [write_field field_bytes field_ok] in *; auto. unfold wire_write_u48. rewrite be48; auto. Qed.
Lemma read_field_bytes : forall w f pre post, field_ok f -> at_ w pre (field_bytes f ++ post) ->
  exists w', read_field w f = Ok (f, w') /\ at_ w' (pre ++ field_bytes f) post.
Proof.
  intros w f pre post Hf H. destruct (c48_read _ _ _ _ H) as (w' & E & A). exists w'. split; [|auto]. rewrite field_bytes_size in E.
  destruct f as [v|v|v|v|v|d]; cbn [read_field field_bytes field_size field_ok] in *;
    unfold wire_read_u8, wire_read_u16, wire_read_u32, wire_read_u48, wire_read_u64; rewrite E; cbn [rbind]; try reflexivity.
  1,2,3,5: do 3 f_equal; rewrite unbe_be; apply Z.mod_small; cbn; lia.
  rewrite unbe48 by (try apply be_bytes; apply be_length). rewrite unbe_be. rewrite Z.mod_small by (cbn; lia). auto.
Qed.
Theorem c48_round_trip : forall fs w pre post, Forall field_ok fs -> at_ w pre post -> w_ro w = false -> fields_size fs <= zlen post ->
  exists w1 w2 w3, write_fields w fs = Ok w1 /\ w_err w1 = KNOT_EOK /\ w_pos w1 = zlen pre + fields_size fs /\
    wire_set_offset w1 (zlen pre) = w2 /\ read_fields w2 fs = Ok (fs, w3) /\
    w_err w3 = KNOT_EOK /\ w_pos w3 = zlen pre + fields_size fs.
Proof.
  assert (WR : forall fs w pre post, Forall field_ok fs -> at_ w pre post -> w_ro w = false -> fields_size fs <= zlen post ->
    exists w1 post', write_fields w fs = Ok w1 /\ at_ w1 (pre ++ concat (map field_bytes fs)) post').
  { induction fs as [|f fs IH]; intros w pre post HF HA Hro Hs; cbn [write_fields map concat].
    - exists w, post. rewrite app_nil_r. auto.
    - inversion HF; subst. cbn [fields_size fold_right] in Hs. fold (fields_size fs) in Hs.
      assert (0 <= fields_size fs). { clear. induction fs as [|f fs IH]; cbn [fields_size fold_right]; [lia|]. fold (fields_size fs). rewrite <- field_bytes_size. pose proof (zlen_nonneg (field_bytes f)). lia. }
      rewrite write_field_bytes by auto. destruct (c48_write w pre post (field_bytes f) HA Hro) as [G _].
      destruct G as (w1 & -> & A1 & R1); [rewrite field_bytes_size; lia|]. cbn [rbind].
      destruct (IH w1 (pre ++ field_bytes f) (zskipn (zlen (field_bytes f)) post)) as (w2 & post' & E & A2); auto.
      { pose proof (zlen_nonneg (field_bytes f)). rewrite zlen_zskipn by (rewrite field_bytes_size in *; lia). rewrite field_bytes_size. lia. }
      exists w2, post'. split; [auto|]. rewrite app_assoc. auto. }
  assert (RD : forall fs w pre post, Forall field_ok fs -> at_ w pre (concat (map field_bytes fs) ++ post) ->
    exists w', read_fields w fs = Ok (fs, w') /\ at_ w' (pre ++ concat (map field_bytes fs)) post).
  { induction fs as [|f fs IH]; intros w pre post HF HA; cbn [read_fields map concat] in *.
    - exists w. rewrite app_nil_r. auto.
    - inversion HF; subst. rewrite <- app_assoc in HA. destruct (read_field_bytes w f pre _ H1 HA) as (w1 & -> & A1). cbn [rbind].
      destruct (IH w1 (pre ++ field_bytes f) post) as (w2 & -> & A2); auto. cbn [rbind]. exists w2. split; [auto|]. rewrite app_assoc. auto. }
  assert (SZ : forall fs, zlen (concat (map field_bytes fs)) = fields_size fs).
  { induction fs as [|f fs IH]; cbn [map concat fields_size fold_right]; auto. rewrite zlen_app, IH, field_bytes_size. auto. }
  intros fs w pre post HF HA Hro Hs. destruct (WR fs w pre post HF HA Hro Hs) as (w1 & post' & E1 & A1). pose proof (at_wf _ _ _ A1) as [_ S1]. pose proof A1 as (B1 & B2 & B3 & B4).
  assert (A2 : at_ (wire_set_offset w1 (zlen pre)) pre (concat (map field_bytes fs) ++ post')).
  { unfold wire_set_offset. rewrite B3. change (KNOT_EOK =? KNOT_EOK) with true. cbn [negb]. replace (_ >? _) with false.
    2:{ rewrite S1, zlen_app. pose proof (zlen_nonneg (concat (map field_bytes fs))). pose proof (zlen_nonneg post'). lia. }
    unfold at_. cbn [set_pos w_buf w_pos w_err]. rewrite B1. rewrite <- app_assoc in *. auto. }
  destruct (RD fs _ pre post' HF A2) as (w3 & E3 & (D1 & D2 & D3 & D4)).
  exists w1. eexists. exists w3. split; [auto|]. rewrite B2, D2, zlen_app, SZ in *. split; [auto|]. split; [auto|]. split; [reflexivity|]. auto.
Qed.
Example c48_ex : match write_fields (wire_init (zeros 30)) [F8 7; F48 1099511627775; FData [1;2;3]; F16 65535] with
  | Ok w => (w_buf w, w_pos w, w_err w) | _ => ([], 0, 0) end
  = ([7; 0; 255; 255; 255; 255; 255; 1; 2; 3; 255; 255] ++ zeros 18, 12, 0).
Proof. vm_compute. reflexivity. Qed.

(** Copying between two contexts: the same as reading from one and writing to the other. *)
Theorem c48_copy : forall dst src pre post spre d spost, at_ dst pre post -> w_ro dst = false -> at_ src spre (d ++ spost) ->
  zlen d <= zlen post ->
  exists dst' src', wire_copy dst src (zlen d) = Ok (dst', src') /\
    at_ dst' (pre ++ d) (zskipn (zlen d) post) /\ at_ src' (spre ++ d) spost.
Proof.
  intros dst src pre post spre d spost HD Hro HS Hl. destruct (c48_write dst pre post d HD Hro) as [W _]. destruct (W Hl) as (dst' & Ew & AD & _).
  destruct (c48_read _ _ _ _ HS) as (src' & Er & AS). pose proof (at_wf _ _ _ HD) as [WD SD]. pose proof (at_wf _ _ _ HS) as [WS SS].
  pose proof HD as (D1 & D2 & D3 & D4). pose proof HS as (S1 & S2 & S3 & S4).
  unfold wire_copy. rewrite D3. change (KNOT_EOK =? KNOT_EOK) with true. cbn [negb]. rewrite orb_false_r.
  destruct (zlen d =? 0) eqn:E0.
  - assert (d = []) as -> by (destruct d; auto; rewrite zlen_cons in *; pose proof (zlen_nonneg d); lia).
    exists dst, src. rewrite !app_nil_r. split; [auto|]. split; [split; auto|]. auto.
  - unfold wire_read in Er. unfold wire_write in Ew. rewrite D3 in Ew. rewrite S3 in Er. change (KNOT_EOK =? KNOT_EOK) with true in Er, Ew. cbn [negb] in Er, Ew. rewrite E0 in Ew.
    destruct (wire_can_read src (zlen d) =? KNOT_EOK) eqn:R; cbn [negb] in Er |- *.
    2:{ exfalso. unfold wire_can_read in R. rewrite S3, wf_avail in R by auto. change (KNOT_EOK =? KNOT_EOK) with true in R. cbn [negb] in R.
        replace (_ <? zlen d) with false in R by (rewrite SS, S2, zlen_app; pose proof (zlen_nonneg spost); lia). discriminate. }
    destruct (wire_can_write dst (zlen d) =? KNOT_EOK) eqn:C; cbn [negb] in Ew |- *.
    2:{ exfalso. unfold wire_can_write in C. rewrite D3, Hro, wf_avail in C by auto. change (KNOT_EOK =? KNOT_EOK) with true in C. cbn [negb] in C.
        replace (_ <? zlen d) with false in C by (rewrite SD, D2; lia). discriminate. }
    destruct (mem_read (w_buf src) (w_pos src) (zlen d)) as [x| | |] eqn:M; cbn [rbind] in Er; try discriminate. injection Er as <- <-. cbn [rbind].
    destruct (mem_write (w_buf dst) (w_pos dst) x) as [b| | |] eqn:M2; cbn [rbind] in Ew; try discriminate. injection Ew as <-. cbn [rbind].
    eexists _, _. split; [reflexivity|]. auto.
Qed.
(** A copy that cannot be done leaves both as they are, except for the error of the destination. *)
Theorem c48_copy_fails : forall dst src pre post spre spost n, at_ dst pre post -> at_ src spre spost ->
  0 < n < 2 ^ 64 -> zlen spost < n \/ zlen post < n \/ w_ro dst = true ->
  exists e, wire_copy dst src n = Ok (set_err dst e, src) /\ e <> KNOT_EOK.
Proof.
  intros dst src pre post spre spost n HD HS Hn Hf. pose proof (at_wf _ _ _ HD) as [WD SD]. pose proof (at_wf _ _ _ HS) as [WS SS].
  pose proof HD as (D1 & D2 & D3 & D4). pose proof HS as (S1 & S2 & S3 & S4).
  unfold wire_copy, wire_can_read, wire_can_write. rewrite D3, S3, !wf_avail, SD, SS, D2, S2 by auto.
  change (KNOT_EOK =? KNOT_EOK) with true. cbn [negb]. replace (n =? 0) with false by lia. cbn [orb].
  replace (zlen spre + zlen spost - zlen spre) with (zlen spost) by lia. replace (zlen pre + zlen post - zlen pre) with (zlen post) by lia.
  destruct (zlen spost <? n) eqn:E1; [exists KNOT_EFEWDATA; split; [reflexivity|discriminate]|].
  change (KNOT_EOK =? KNOT_EOK) with true. cbn [negb].
  destruct (w_ro dst) eqn:E2; [exists KNOT_EACCES; split; [reflexivity|discriminate]|].
  destruct (zlen post <? n) eqn:E3; [exists KNOT_ESPACE; split; [reflexivity|discriminate]|].
  destruct Hf as [|[|]]; try lia; discriminate.
Qed.

(** *** printf *)
(** Safe for every text, and exact when the text is shorter than the room. *)
Theorem c48_printf_partial : forall w pre post t, at_ w pre post -> zlen t < zlen post ->
  exists w', wire_printf w (Some t) = Ok (zlen t, w') /\ at_ w' (pre ++ t) ([0] ++ zskipn (zlen t + 1) post).
Proof.
  intros w pre post t HA Ht. pose proof (at_wf _ _ _ HA) as [WD SD]. destruct HA as (H1 & H2 & H3 & H4). pose proof (zlen_nonneg t). pose proof (zlen_nonneg pre).
  unfold wire_printf. rewrite wf_avail, SD, H2 by auto. replace (zlen pre + zlen post - zlen pre) with (zlen post) by lia.
  replace (zlen post =? 0) with false by lia. rewrite zfirstn_all by lia.
  rewrite mem_write_ok by (rewrite ?H1, ?zlen_app; change (zlen [0]) with 1; lia). cbn [rbind]. replace (_ >? _) with false by lia.
  eexists. split; [reflexivity|]. unfold at_. cbn [set_pos w_buf w_pos w_err].
  rewrite H1, zfirstn_app_exact. rewrite zlen_app. change (zlen [0]) with 1.
  rewrite <- zskipn_zskipn by lia. rewrite zskipn_app_exact. rewrite <- !app_assoc. split; [auto|]. split; [rewrite zlen_app; auto|]. split; [auto|].
  rewrite !zlen_app in *. change (zlen [0]) with 1. rewrite zlen_zskipn by lia. lia.
Qed.
Theorem c48_printf_safe : forall w t, wf w -> exists r w', wire_printf w t = Ok (r, w') /\ wf w' /\ w_size w' = w_size w.
Proof.
  intros w t W. pose proof W as [W1 W2]. unfold wire_printf. rewrite wf_avail by auto. destruct t as [t|]; [|eexists _, _; split; [reflexivity|]; split; auto].
  pose proof (zlen_nonneg t). unfold w_size in *.
  destruct (zlen (w_buf w) - w_pos w =? 0) eqn:E; cbn [rbind].
  - destruct (zlen t >? _) eqn:E2; eexists _, _; (split; [reflexivity|]); unfold wf, w_size; cbn [set_err set_pos w_buf w_pos]; wfin.
  - set (m := zlen (w_buf w) - w_pos w) in *. assert (L : zlen (zfirstn (m - 1) t ++ [0]) <= m).
    { rewrite zlen_app. change (zlen [0]) with 1. unfold zfirstn, zlen in *. rewrite firstn_length. lia. }
    destruct (mem_write (w_buf w) (w_pos w) (zfirstn (m - 1) t ++ [0])) as [b| | |] eqn:M; [|exfalso; rewrite mem_write_ok in M by lia; discriminate..].
    pose proof (mem_write_len _ _ _ _ M). cbn [rbind].
    destruct (zlen t >? m) eqn:E2; eexists _, _; (split; [reflexivity|]); unfold wf, w_size; cbn [set_err set_pos w_buf w_pos]; wfin.
Qed.
(** A text that is exactly as long as the room is reported as stored, but its last character is
    replaced by the terminating zero. *)
Theorem c48_printf_truncated_refuted : exists w t w', wf w /\ w_err w = KNOT_EOK /\ wire_printf w (Some t) = Ok (zlen t, w') /\
  w_err w' = KNOT_EOK /\ zfirstn (zlen t) (w_buf w') <> t.
Proof. exists (wire_init [9;9;9]), [65;66;67], (mkwire [65;66;0] 3 0 false). split; [split; [vm_compute; split|vm_compute]; congruence|]. split; [auto|]. split; [reflexivity|]. split; [auto|]. vm_compute. congruence. Qed.
(** It also writes after an error, and into a context opened for reading only. *)
Theorem c48_printf_ignores_error_refuted : exists w t r w', wf w /\ w_err w <> KNOT_EOK /\ w_ro w = true /\
  wire_printf w (Some t) = Ok (r, w') /\ w_buf w' <> w_buf w.
Proof. exists (mkwire [9;9;9] 0 KNOT_ESPACE true), [65]. eexists _, _. split; [split; [vm_compute; split|vm_compute]; congruence|]. split; [discriminate|]. split; [auto|]. split; [reflexivity|]. vm_compute. congruence. Qed.
(** Skipping by the smallest ssize_t is undefined. *)
Theorem c48_skip_min_refuted : exists w, wf w /\ wire_skip w (- 2 ^ 63) = UB.
Proof. exists (wire_init [1]). split; [split; [vm_compute; split|vm_compute]; congruence|]. reflexivity. Qed.

Print Assumptions c48_safe. Print Assumptions c48_round_trip. Print Assumptions c48_copy.
