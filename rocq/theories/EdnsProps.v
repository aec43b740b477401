(** C49: EDNS option handling. *)
From Verif Require Import Base WireModel WireProofs WireProps EdnsModel.

(** ** Specification: RFC 6891, section 6.1.2. The RDATA is a list of options, each a code, a length and data. *)
Definition option_ : Type := (Z * list Z)%type.
Definition opt_enc (o : option_) : list Z := be 2 (fst o) ++ be 2 (zlen (snd o)) ++ snd o.
Definition options (os : list option_) : list Z := flat_map opt_enc os.
Definition opt_ok (o : option_) : Prop := 0 <= fst o < 65536 /\ bytes (snd o) /\ zlen (snd o) < 65536.
(** a tail that does not begin with a complete option *)
Definition incomplete (t : list Z) : Prop := t <> [] /\ forall o rest, opt_ok o -> t <> opt_enc o ++ rest.
Definition splits (rd : list Z) (os : list option_) (tail : list Z) : Prop := rd = options os ++ tail /\ Forall opt_ok os /\ (tail = [] \/ incomplete tail).

Lemma options_app : forall a b, options (a ++ b) = options a ++ options b.
Proof. intros. apply flat_map_app. Qed.
Lemma options_cons : forall o os, options (o :: os) = opt_enc o ++ options os.
Proof. reflexivity. Qed.
Lemma zlen_be2 : forall v, zlen (be 2 v) = 2.
Proof. intros. rewrite be_length. reflexivity. Qed.
Lemma zlen_opt : forall o, zlen (opt_enc o) = 4 + zlen (snd o).
Proof. intros. unfold opt_enc. rewrite !zlen_app, !zlen_be2. lia. Qed.
Lemma unbe_be2 : forall v, 0 <= v < 65536 -> unbe (be 2 v) = v.
Proof. intros. rewrite unbe_be. apply Z.mod_small. change (256 ^ Z.of_nat 2) with 65536. lia. Qed.

(** ** Steps of the reader *)
Lemma rd16 : forall w pre d post, at_ w pre (d ++ post) -> zlen d = 2 -> exists w', wire_read_u16 w = Ok (unbe d, w') /\ at_ w' (pre ++ d) post.
Proof. intros w pre d post H L. destruct (c48_read w pre d post H) as (w' & E & A). exists w'. unfold wire_read_u16. rewrite <- L, E. split; auto. Qed.
Lemma rd8 : forall w pre d post, at_ w pre (d ++ post) -> zlen d = 1 -> exists w', wire_read_u8 w = Ok (unbe d, w') /\ at_ w' (pre ++ d) post.
Proof. intros w pre d post H L. destruct (c48_read w pre d post H) as (w' & E & A). exists w'. unfold wire_read_u8. rewrite <- L, E. split; auto. Qed.
Lemma rd_short : forall w pre post, at_ w pre post -> zlen post < 2 -> wire_read_u16 w = Ok (0, set_err w KNOT_EFEWDATA).
Proof. intros w pre post H L. unfold wire_read_u16. rewrite (c48_read_past_end w pre post 2 H) by lia. reflexivity. Qed.
Lemma rd16_err : forall w, wf w -> w_err w <> KNOT_EOK -> wire_read_u16 w = Ok (0, w).
Proof. intros. unfold wire_read_u16. rewrite c48_error_reads_zero by (auto; lia). reflexivity. Qed.
Lemma rd8_err : forall w, wf w -> w_err w <> KNOT_EOK -> wire_read_u8 w = Ok (0, w).
Proof. intros. unfold wire_read_u8. rewrite c48_error_reads_zero by (auto; lia). reflexivity. Qed.
Lemma skip_err : forall w n, w_err w <> KNOT_EOK -> wire_skip w n = Ok w.
Proof. intros w n H. unfold wire_skip. replace (w_err w =? KNOT_EOK) with false by (symmetry; apply Z.eqb_neq; auto). reflexivity. Qed.
Lemma at_avail : forall w pre post, at_ w pre post -> wire_available w = zlen post.
Proof. intros w pre post H. destruct (at_wf _ _ _ H) as [W S]. rewrite wf_avail, S by auto. destruct H as (_ & -> & _). lia. Qed.
Lemma skip_at : forall w pre d post, at_ w pre (d ++ post) -> exists w', wire_skip w (zlen d) = Ok w' /\ at_ w' (pre ++ d) post.
Proof.
  intros w pre d post H. pose proof (at_avail _ _ _ H) as HA. destruct H as (H1 & H2 & H3 & H4). unfold wire_skip. rewrite H3, HA. change (KNOT_EOK =? KNOT_EOK) with true. cbn [negb]. pose proof (zlen_nonneg d). pose proof (zlen_nonneg post). rewrite zlen_app. replace (zlen d >=? 0) with true by lia. replace (zlen d >? zlen d + zlen post) with false by lia.
  eexists. split; [reflexivity|]. unfold at_. cbn [set_pos w_buf w_pos w_err]. rewrite <- app_assoc, zlen_app. split; auto. split; [lia|auto].
Qed.
Lemma skip_short : forall w pre post n, at_ w pre post -> zlen post < n -> wire_skip w n = Ok (set_err w KNOT_ERANGE).
Proof. intros w pre post n H Hn. pose proof (at_avail _ _ _ H) as HA. destruct H as (H1 & H2 & H3 & H4). unfold wire_skip. rewrite H3, HA. change (KNOT_EOK =? KNOT_EOK) with true. cbn [negb]. pose proof (zlen_nonneg post). replace (n >=? 0) with true by lia. replace (n >? zlen post) with true by lia. reflexivity. Qed.
Lemma wf_set_err : forall w e, wf w -> wf (set_err w e).
Proof. auto. Qed.

Lemma head2 : forall (l : list Z), bytes l -> 2 <= zlen l -> exists v r, l = be 2 v ++ r /\ 0 <= v < 65536 /\ bytes r.
Proof.
  intros [|a [|b r]] HB HL; rewrite ?zlen_cons, ?zlen_nil in HL; try lia. exists (unbe [a; b]), r. apply bytes_cons in HB; destruct HB as [B1 HB1]; apply bytes_cons in HB1; destruct HB1 as [B2 HB2]. assert (H : bytes [a; b]) by (apply bytes_cons; split; [auto|apply bytes_cons; split; [auto|constructor]]).
  pose proof (be_unbe [a; b] H) as E. cbn [length] in E. rewrite E. split; auto. split; auto. pose proof (unbe_bound [a; b] H) as U. change (256 ^ zlen [a; b]) with 65536 in U. auto.
Qed.
Lemma enc_inj : forall o1 r1 o2 r2, opt_ok o1 -> opt_ok o2 -> opt_enc o1 ++ r1 = opt_enc o2 ++ r2 -> o1 = o2 /\ r1 = r2.
Proof.
  intros [c1 d1] r1 [c2 d2] r2 (A1 & A2 & A3) (B1 & B2 & B3) H. cbn [fst snd] in *. unfold opt_enc in H. cbn [fst snd] in H. rewrite <- !app_assoc in H.
  destruct (app_inj_len _ _ _ _ ltac:(rewrite !zlen_be2; auto) H) as [E1 H1]. destruct (app_inj_len _ _ _ _ ltac:(rewrite !zlen_be2; auto) H1) as [E2 H2].
  assert (c1 = c2) by (rewrite <- (unbe_be2 c1), <- (unbe_be2 c2) by auto; congruence). pose proof (zlen_nonneg d1). pose proof (zlen_nonneg d2). assert (zlen d1 = zlen d2) by (rewrite <- (unbe_be2 (zlen d1)), <- (unbe_be2 (zlen d2)) by auto; congruence).
  destruct (app_inj_len _ _ _ _ H5 H2). subst. auto.
Qed.
Lemma cases : forall l, bytes l -> l = [] \/ incomplete l \/ exists o rest, opt_ok o /\ l = opt_enc o ++ rest /\ bytes rest.
Proof.
  intros l HB. destruct l as [|x l0] eqn:EL; [auto|]. rewrite <- EL in *. right. assert (NE : l <> []) by congruence. clear EL.
  destruct (Z_lt_le_dec (zlen l) 4) as [L4|L4].
  - left. split; auto. intros o rest Ho E. apply (f_equal zlen) in E. rewrite zlen_app, zlen_opt in E. pose proof (zlen_nonneg rest). pose proof (zlen_nonneg (snd o)). lia.
  - destruct (head2 l HB) as (c & r1 & -> & Hc & B1); [lia|]. rewrite zlen_app, zlen_be2 in L4. destruct (head2 r1 B1) as (n & r2 & -> & Hn & B2); [lia|]. destruct (Z_lt_le_dec (zlen r2) n) as [LN|LN].
    + left. split; auto. intros [c2 d2] rest (O1 & O2 & O3) E. cbn [fst snd] in *. unfold opt_enc in E. cbn [fst snd] in E. rewrite <- !app_assoc in E.
      destruct (app_inj_len _ _ _ _ ltac:(rewrite !zlen_be2; auto) E) as [E1 E2]. destruct (app_inj_len _ _ _ _ ltac:(rewrite !zlen_be2; auto) E2) as [E3 E4]. pose proof (zlen_nonneg d2). apply (f_equal unbe) in E3. rewrite !unbe_be2 in E3 by lia.
      apply (f_equal zlen) in E4. rewrite !zlen_app in E4. pose proof (zlen_nonneg rest). lia.
    + right. exists (c, zfirstn n r2), (zskipn n r2). unfold opt_ok, opt_enc. cbn [fst snd]. rewrite zlen_zfirstn by lia. rewrite <- !app_assoc, zfirstn_skipn. split; [|split; auto].
      * split; auto. split; [|lia]. rewrite <- (zfirstn_skipn _ r2 n) in B2. apply bytes_app in B2. tauto.
      * rewrite <- (zfirstn_skipn _ r2 n) in B2. apply bytes_app in B2. tauto.
Qed.
(** Every RDATA is a list of options followed by nothing or an incomplete rest, in one way. *)
Theorem c49_unique : forall rd, bytes rd -> exists os tail, splits rd os tail /\ forall os' tail', splits rd os' tail' -> os' = os /\ tail' = tail.
Proof.
  intros rd. remember (length rd) as n eqn:En. revert rd En. induction n as [n IH] using lt_wf_ind. intros rd -> HB. destruct (cases rd HB) as [->|[HI|(o & rest & Ho & -> & HR)]].
  - exists [], []. split; [repeat split; auto|]. intros os' tail' (E & F & T). destruct os' as [|o os']; [cbn in E; auto|]. exfalso. apply (f_equal zlen) in E. cbn [options flat_map] in E. rewrite !zlen_app, zlen_opt, zlen_nil in E. pose proof (zlen_nonneg (snd o)). pose proof (zlen_nonneg (flat_map opt_enc os')). pose proof (zlen_nonneg tail'). lia.
  - exists [], rd. split; [repeat split; auto|]. intros os' tail' (E & F & T). destruct os' as [|o os']; [cbn in E; auto|]. exfalso. inversion F; subst. destruct HI as [_ HI]. apply (HI o (options os' ++ tail')); auto. cbn [options flat_map]. rewrite <- app_assoc. reflexivity.
  - destruct (IH (length rest)) with (rd := rest) as (os & tail & (E & F & T) & U); auto. { unfold opt_enc. rewrite app_length. assert (zlen (opt_enc o) >= 4) by (rewrite zlen_opt; pose proof (zlen_nonneg (snd o)); lia). unfold zlen, opt_enc in H. lia. }
    exists (o :: os), tail. split; [split; [cbn [options flat_map]; rewrite <- app_assoc; f_equal; auto|]; split; [constructor; auto|auto]|].
    intros os' tail' (E' & F' & T'). destruct os' as [|o' os'].
    + exfalso. cbn [options flat_map app] in E'. subst tail'. destruct T' as [T'|[_ T']]; [|apply (T' o rest); auto]. apply (f_equal zlen) in T'. rewrite zlen_app, zlen_opt, zlen_nil in T'. pose proof (zlen_nonneg (snd o)). pose proof (zlen_nonneg rest). lia.
    + inversion F'; subst. cbn [options flat_map] in E'. rewrite <- app_assoc in E'. destruct (enc_inj _ _ _ _ Ho H1 E') as [-> ER]. destruct (U os' tail') as [-> ->]; auto. split; auto.
Qed.

(** one option, as the loops read it *)
Definition read1 (w : wire) : res (Z * wire) := let* (c, w) := wire_read_u16 w in let* (n, w) := wire_read_u16 w in let* w := wire_skip w n in Ok (c, w).
Lemma read1_ok : forall w pre o rest, at_ w pre (opt_enc o ++ rest) -> opt_ok o -> exists w', read1 w = Ok (fst o, w') /\ at_ w' (pre ++ opt_enc o) rest.
Proof.
  intros w pre [c d] rest HA (O1 & O2 & O3). cbn [fst snd] in *. unfold opt_enc in HA. cbn [fst snd] in HA. rewrite <- !app_assoc in HA. unfold read1. destruct (rd16 _ _ _ _ HA (zlen_be2 c)) as (w1 & -> & A1). cbn [rbind]. destruct (rd16 _ _ _ _ A1 (zlen_be2 _)) as (w2 & -> & A2). cbn [rbind].
  pose proof (zlen_nonneg d). rewrite !unbe_be2 by lia. destruct (skip_at _ _ _ _ A2) as (w3 & -> & A3). cbn [rbind]. exists w3. split; auto. unfold opt_enc. cbn [fst snd]. rewrite !app_assoc. rewrite ?app_assoc in A3. exact A3.
Qed.
Lemma read1_bad : forall w pre t, at_ w pre t -> bytes t -> incomplete t -> exists c w', read1 w = Ok (c, w') /\ w_err w' <> KNOT_EOK /\ wf w'.
Proof.
  intros w pre t HA HB [NE HI]. destruct (at_wf _ _ _ HA) as [W _]. unfold read1. destruct (Z_lt_le_dec (zlen t) 2) as [L2|L2].
  - rewrite (rd_short _ _ _ HA L2). cbn [rbind]. rewrite rd16_err by (auto; discriminate). cbn [rbind]. rewrite skip_err by discriminate. eexists _, _. split; [reflexivity|]. split; [discriminate|auto].
  - destruct (head2 t HB L2) as (c & r & -> & Hc & HR). destruct (rd16 _ _ _ _ HA (zlen_be2 c)) as (w1 & -> & A1). cbn [rbind]. destruct (at_wf _ _ _ A1) as [W1 _]. destruct (Z_lt_le_dec (zlen r) 2) as [M2|M2].
    + rewrite (rd_short _ _ _ A1 M2). cbn [rbind]. rewrite skip_err by discriminate. eexists _, _. split; [reflexivity|]. split; [discriminate|auto].
    + destruct (head2 r HR M2) as (n & d & -> & Hn & HD). destruct (rd16 _ _ _ _ A1 (zlen_be2 n)) as (w2 & -> & A2). cbn [rbind]. rewrite (unbe_be2 n) by auto. destruct (Z_lt_le_dec (zlen d) n) as [LN|LN].
      * rewrite (skip_short _ _ _ _ A2 LN). eexists _, _. split; [reflexivity|]. split; [discriminate|]. apply wf_set_err. apply (at_wf _ _ _ A2).
      * exfalso. apply (HI (c, zfirstn n d) (zskipn n d)).
        { split; auto. cbn [fst snd]. rewrite zlen_zfirstn by lia. split; [|lia]. rewrite <- (zfirstn_skipn _ d n) in HD. apply bytes_app in HD. tauto. }
        { unfold opt_enc. cbn [fst snd]. rewrite zlen_zfirstn by lia. rewrite <- !app_assoc, zfirstn_skipn. auto. }
Qed.
Lemma get_loop_step : forall fuel w code, get_loop (S fuel) w code = if (wire_available w >? 0) && (w_err w =? KNOT_EOK) then let* (c, w') := read1 w in if (w_err w' =? KNOT_EOK) && (c =? code) then Ok (Some (w_pos w)) else get_loop fuel w' code else Ok None.
Proof.
  intros. cbn [get_loop]. destruct ((wire_available w >? 0) && (w_err w =? KNOT_EOK)); auto. unfold read1. destruct (wire_read_u16 w) as [[c w1]| | |]; cbn [rbind]; auto. destruct (wire_read_u16 w1) as [[n w2]| | |]; cbn [rbind]; auto. destruct (wire_skip w2 n); cbn [rbind]; auto.
Qed.
(** the position of the first option with the code *)
Definition first_at (code : Z) (os : list option_) (base : Z) (r : option Z) : Prop :=
  match r with
  | Some p => exists os1 d os2, os = os1 ++ (code, d) :: os2 /\ p = base + zlen (options os1) /\ ~ In code (map fst os1)
  | None => ~ In code (map fst os)
  end.
Lemma get_loop_spec : forall os fuel w pre tail code, at_ w pre (options os ++ tail) -> Forall opt_ok os -> bytes tail -> (tail = [] \/ incomplete tail) -> (S (length os) < fuel)%nat ->
  exists r, get_loop fuel w code = Ok r /\ first_at code os (zlen pre) r.
Proof.
  induction os as [|o os IH]; intros fuel w pre tail code HA HF HB HT Hf; (destruct fuel as [|fuel]; [lia|]); rewrite get_loop_step; rewrite (at_avail _ _ _ HA); pose proof HA as (_ & HP & HE & _); rewrite HE; change (KNOT_EOK =? KNOT_EOK) with true; rewrite andb_true_r.
  - cbn [options flat_map app] in HA |- *. destruct HT as [->|HT].
    + rewrite zlen_nil. change (0 >? 0) with false. exists None. split; auto. cbn. auto.
    + destruct (zlen tail >? 0) eqn:EZ; [|exists None; split; auto; cbn; auto]. destruct (read1_bad _ _ _ HA HB HT) as (c & w' & -> & Hw & Wf). cbn [rbind]. replace (w_err w' =? KNOT_EOK) with false by (symmetry; apply Z.eqb_neq; auto). cbn [andb].
      destruct fuel as [|fuel]; [cbn [length] in Hf; lia|]. rewrite get_loop_step. replace (w_err w' =? KNOT_EOK) with false by (symmetry; apply Z.eqb_neq; auto). rewrite andb_false_r. exists None. split; auto. cbn. auto.
  - inversion HF; subst. cbn [options flat_map] in HA |- *. rewrite <- app_assoc in HA. fold (options os) in *. pose proof (zlen_opt o) as ZO. pose proof (zlen_nonneg (snd o)). rewrite !zlen_app. pose proof (zlen_nonneg (options os)). pose proof (zlen_nonneg tail). replace (zlen (opt_enc o) + zlen (options os) + zlen tail >? 0) with true by lia.
    destruct (read1_ok _ _ _ _ HA H1) as (w' & -> & A'). cbn [rbind]. pose proof A' as (_ & _ & E' & _). rewrite E'. change (KNOT_EOK =? KNOT_EOK) with true. cbn [andb]. destruct (fst o =? code) eqn:EC.
    + exists (Some (w_pos w)). split; auto. destruct o as [c d]. cbn [fst] in EC. exists [], d, os. replace code with c by lia. split; auto. cbn [options flat_map]. rewrite zlen_nil. split; [lia|auto].
    + destruct (IH fuel w' (pre ++ opt_enc o) tail code A' H2 HB HT) as (r & Er & Hr); [cbn [length] in Hf; lia|]. exists r. split; auto. destruct r as [p|]; cbn [first_at] in *.
      * destruct Hr as (os1 & d & os2 & -> & -> & NI). exists (o :: os1), d, os2. split; auto. cbn [options flat_map]. rewrite !zlen_app. fold (options os1). split; [lia|]. cbn [map In]. intros [X|X]; [lia|auto].
      * cbn [map In]. intros [X|X]; [lia|auto].
Qed.
Lemma options_len : forall os, (4 * length os <= length (options os))%nat.
Proof. induction os as [|o os IH]; cbn [options flat_map length]; [lia|]. rewrite app_length. fold (options os). pose proof (zlen_opt o). unfold zlen in *. lia. Qed.
Lemma at_init_const : forall d, zlen d < 2 ^ 63 -> at_ (wire_init_const d) [] d.
Proof. intros. unfold at_, wire_init_const. cbn [w_buf w_pos w_err app]. rewrite zlen_nil. auto. Qed.
Lemma at_init : forall d, zlen d < 2 ^ 63 -> at_ (wire_init d) [] d.
Proof. intros. unfold at_, wire_init. cbn [w_buf w_pos w_err app]. rewrite zlen_nil. auto. Qed.
(** Lookup returns the first complete option with the code, for every RDATA. *)
Theorem c49_get : forall cl ttl rd os tail code, bytes rd -> zlen rd < 65536 -> splits rd os tail ->
  exists r, edns_get_option (mkopt cl ttl (Some rd)) code None = Ok r /\ first_at code os 0 r.
Proof.
  intros cl ttl rd os tail code HB HL (-> & HF & HT). unfold edns_get_option. cbn [o_rdata]. apply bytes_app in HB. destruct HB as [B1 B2]. destruct (zlen (options os ++ tail) =? 0) eqn:E.
  - exists None. split; auto. destruct os as [|o os]; [cbn; auto|]. exfalso. cbn [options flat_map] in E. rewrite !zlen_app, zlen_opt in E. pose proof (zlen_nonneg (snd o)). pose proof (zlen_nonneg (flat_map opt_enc os)). pose proof (zlen_nonneg tail). lia.
  - cbv zeta. apply (get_loop_spec os _ _ [] tail code); auto; [apply at_init_const; lia|]. rewrite app_length. pose proof (options_len os). destruct os; cbn [length] in *; [|lia]. cbn in E. destruct tail; [discriminate|cbn [length]; lia].
Qed.
(** ... and with the position of an option, the first one behind it. *)
Theorem c49_get_next : forall cl ttl rd os1 o os2 tail code, bytes rd -> zlen rd < 65536 -> splits rd (os1 ++ o :: os2) tail ->
  exists r, edns_get_option (mkopt cl ttl (Some rd)) code (Some (zlen (options os1))) = Ok r /\ first_at code os2 (zlen (options (os1 ++ [o]))) r.
Proof.
  intros cl ttl rd os1 o os2 tail code HB HL (E & HF & HT). unfold edns_get_option. cbn [o_rdata]. rewrite options_app, options_cons in E. rewrite <- !app_assoc in E. pose proof (zlen_nonneg (options os1)). pose proof (zlen_opt o). pose proof (zlen_nonneg (snd o)). pose proof (zlen_nonneg (options os2 ++ tail)).
  assert (LR : zlen rd = zlen (options os1) + zlen (opt_enc o) + zlen (options os2 ++ tail)) by (rewrite E, !zlen_app; lia). replace (zlen rd =? 0) with false by lia. cbv zeta. replace (zlen (options os1) <? 0) with false by lia.
  apply Forall_app in HF. destruct HF as [F1 F2]. pose proof (Forall_inv F2) as H5. pose proof (Forall_inv_tail F2) as F3. destruct o as [c d]. destruct H5 as (O1 & O2 & O3). cbn [fst snd] in *.
  assert (A0 : at_ (wire_set_offset (wire_init_const rd) (zlen (options os1) + 2)) (options os1 ++ be 2 c) (be 2 (zlen d) ++ d ++ options os2 ++ tail)).
  { unfold wire_set_offset, wire_init_const. cbn [w_err]. change (KNOT_EOK =? KNOT_EOK) with true. cbn [negb]. unfold w_size. cbn [w_buf]. replace (zlen (options os1) + 2 >? zlen rd) with false by lia. unfold at_, set_pos. cbn [w_buf w_pos w_err]. assert (ER : rd = (options os1 ++ be 2 c) ++ be 2 (zlen d) ++ d ++ options os2 ++ tail) by (rewrite E; unfold opt_enc; cbn [fst snd]; rewrite <- !app_assoc; auto).
    split; auto. split; [rewrite zlen_app, zlen_be2; auto|]. split; auto. rewrite <- ER. lia. }
  destruct (rd16 _ _ _ _ A0 (zlen_be2 _)) as (w2 & -> & A2). cbn [rbind]. rewrite unbe_be2 by lia. destruct (skip_at _ _ _ _ A2) as (w3 & -> & A3). cbn [rbind].
  assert (EP : ((options os1 ++ be 2 c) ++ be 2 (zlen d)) ++ d = options (os1 ++ [(c, d)])). { rewrite options_app, options_cons. change (options []) with (@nil Z). rewrite app_nil_r. unfold opt_enc. cbn [fst snd]. rewrite <- !app_assoc. reflexivity. } rewrite EP in A3.
  assert (BT : bytes tail) by (rewrite E in HB; apply bytes_app in HB; destruct HB as [_ HB]; apply bytes_app in HB; destruct HB as [_ HB]; apply bytes_app in HB; tauto).
  apply (get_loop_spec os2 _ w3 _ tail code); auto. pose proof (options_len os2). unfold zlen in *. rewrite app_length in *. lia.
Qed.
(** Reading the data of the option found. *)
Theorem c49_data : forall os1 c d os2 tail, opt_ok (c, d) -> opt_get_data (options (os1 ++ (c, d) :: os2) ++ tail) (zlen (options os1)) = Ok d.
Proof.
  intros os1 c d os2 tail (O1 & O2 & O3). cbn [fst snd] in *. rewrite options_app, options_cons. unfold opt_enc. cbn [fst snd]. rewrite <- !app_assoc. unfold opt_get_data. pose proof (zlen_nonneg (options os1)). pose proof (zlen_nonneg d). pose proof (zlen_nonneg (options os2)). pose proof (zlen_nonneg tail).
  rewrite mem_read_ok by (rewrite ?zlen_app, ?zlen_be2; lia). cbn [rbind]. rewrite <- zskipn_zskipn with (b := zlen (options os1)) by lia. rewrite zskipn_app_exact. rewrite <- (zlen_be2 c) at 2. rewrite zskipn_app_exact. rewrite <- (zlen_be2 (zlen d)) at 1. rewrite zfirstn_app_exact. rewrite unbe_be2 by lia.
  unfold HDRLEN. rewrite mem_read_ok by (rewrite ?zlen_app, ?zlen_be2; lia). f_equal. rewrite <- zskipn_zskipn with (b := zlen (options os1)) by lia. rewrite zskipn_app_exact. rewrite app_assoc. replace 4 with (zlen (be 2 c ++ be 2 (zlen d))) by (rewrite zlen_app, !zlen_be2; auto). rewrite zskipn_app_exact, zfirstn_app_exact. auto.
Qed.

(** ** The table of options *)
Lemma options_loop_step : forall fuel w t, options_loop (S fuel) w t = if (wire_available w >? 0) && (w_err w =? KNOT_EOK) then let* (c, w') := read1 w in
  if (w_err w' =? KNOT_EOK) && (c <=? 17) then (if (0 <=? c) && (c <? zlen t) then options_loop fuel w' (zset t c (Some (w_pos w))) else UB) else options_loop fuel w' t else Ok (w, t).
Proof.
  intros. cbn [options_loop]. destruct ((wire_available w >? 0) && (w_err w =? KNOT_EOK)); auto. unfold read1. destruct (wire_read_u16 w) as [[c w1]| | |]; cbn [rbind]; auto. destruct (wire_read_u16 w1) as [[n w2]| | |]; cbn [rbind]; auto. destruct (wire_skip w2 n); cbn [rbind]; auto.
Qed.
(** the position of the last option with the code, or what was there before *)
Fixpoint last_at (code : Z) (os : list option_) (base : Z) (r : option Z) : option Z :=
  match os with [] => r | o :: os => last_at code os (base + zlen (opt_enc o)) (if fst o =? code then Some base else r) end.
Lemma options_loop_spec : forall os fuel w pre tail t, at_ w pre (options os ++ tail) -> Forall opt_ok os -> bytes tail -> (tail = [] \/ incomplete tail) -> (S (length os) < fuel)%nat -> zlen t = 18 ->
  exists w' t', options_loop fuel w t = Ok (w', t') /\ (w_err w' = KNOT_EOK <-> tail = []) /\ zlen t' = 18 /\ forall c, 0 <= c < 18 -> zget t' c = Some (last_at c os (zlen pre) (match zget t c with Some x => x | None => None end)).
Proof.
  induction os as [|o os IH]; intros fuel w pre tail t HA HF HB HT Hf HZ; (destruct fuel as [|fuel]; [lia|]); rewrite options_loop_step; rewrite (at_avail _ _ _ HA); pose proof HA as (_ & HP & HE & _); rewrite HE; change (KNOT_EOK =? KNOT_EOK) with true; rewrite andb_true_r.
  - cbn [options flat_map app last_at] in HA |- *. assert (KEEP : forall c, 0 <= c < 18 -> zget t c = Some (match zget t c with Some x => x | None => None end)) by (intros c Hc; destruct (zget_in_range t c) as [x ->]; [lia|auto]).
    destruct HT as [->|HT].
    + rewrite zlen_nil. change (0 >? 0) with false. exists w, t. split; auto. split; [tauto|]. auto.
    + pose proof HT as [HNE _]. assert (zlen tail >? 0 = true) by (destruct tail; [congruence|rewrite zlen_cons; pose proof (zlen_nonneg tail); lia]). rewrite H. destruct (read1_bad _ _ _ HA HB HT) as (c & w' & -> & Hw & Wf). cbn [rbind]. replace (w_err w' =? KNOT_EOK) with false by (symmetry; apply Z.eqb_neq; auto). cbn [andb].
      destruct fuel as [|fuel]; [cbn [length] in Hf; lia|]. rewrite options_loop_step. replace (w_err w' =? KNOT_EOK) with false by (symmetry; apply Z.eqb_neq; auto). rewrite andb_false_r. exists w', t. split; auto. split; [tauto|]. auto.
  - inversion HF; subst. cbn [options flat_map] in HA |- *. rewrite <- app_assoc in HA. fold (options os) in *. pose proof (zlen_opt o) as ZO. pose proof (zlen_nonneg (snd o)). rewrite !zlen_app. pose proof (zlen_nonneg (options os)). pose proof (zlen_nonneg tail). replace (zlen (opt_enc o) + zlen (options os) + zlen tail >? 0) with true by lia.
    destruct (read1_ok _ _ _ _ HA H1) as (w' & -> & A'). cbn [rbind]. pose proof A' as (_ & _ & E' & _). rewrite E'. change (KNOT_EOK =? KNOT_EOK) with true. cbn [andb]. pose proof H1 as (O1 & _).
    destruct (fst o <=? 17) eqn:EC.
    + rewrite HZ. replace ((0 <=? fst o) && (fst o <? 18)) with true by lia. destruct (IH fuel w' (pre ++ opt_enc o) tail (zset t (fst o) (Some (w_pos w))) A' H2 HB HT) as (w2 & t2 & -> & X1 & X2 & X3); [cbn [length] in Hf; lia|rewrite zlen_zset; lia|]. exists w2, t2. split; auto. split; auto. split; auto. intros c Hc. rewrite X3 by auto. cbn [last_at]. rewrite zlen_app. rewrite zget_zset by lia. rewrite (Z.eqb_sym (fst o) c). destruct (c =? fst o); auto. rewrite HP. auto.
    + destruct (IH fuel w' (pre ++ opt_enc o) tail t A' H2 HB HT) as (w2 & t2 & -> & X1 & X2 & X3); [cbn [length] in Hf; lia|auto|]. exists w2, t2. split; auto. split; auto. split; auto. intros c Hc. rewrite X3 by auto. cbn [last_at]. rewrite zlen_app. replace (fst o =? c) with false by lia. auto.
Qed.
Definition last_pos (code : Z) (os : list option_) (r : option Z) : Prop :=
  match r with
  | Some p => exists os1 d os2, os = os1 ++ (code, d) :: os2 /\ p = zlen (options os1) /\ ~ In code (map fst os2)
  | None => ~ In code (map fst os)
  end.
Lemma last_at_none : forall code os base r, ~ In code (map fst os) -> last_at code os base r = r.
Proof. induction os as [|o os IH]; intros base r H; cbn [last_at]; auto. cbn [map In] in H. replace (fst o =? code) with false by lia. apply IH. tauto. Qed.
Lemma last_at_app : forall code os1 os2 base r, last_at code (os1 ++ os2) base r = last_at code os2 (base + zlen (options os1)) (last_at code os1 base r).
Proof. induction os1 as [|o os1 IH]; intros os2 base r; cbn [app last_at options flat_map]; [rewrite zlen_nil; f_equal; lia|]. rewrite IH, zlen_app. fold (options os1). f_equal. lia. Qed.
Lemma last_at_pos : forall code os, last_pos code os (last_at code os 0 None).
Proof.
  intros code os. destruct (in_dec Z.eq_dec code (map fst os)) as [H|H]; [|rewrite last_at_none by auto; exact H].
  assert (S : exists os1 d os2, os = os1 ++ (code, d) :: os2 /\ ~ In code (map fst os2)).
  { clear -H. induction os as [|[c d] os IH]; [contradiction|]. destruct (in_dec Z.eq_dec code (map fst os)) as [I|I].
    - destruct (IH I) as (os1 & e & os2 & -> & N). exists ((c, d) :: os1), e, os2. auto.
    - cbn [map In fst] in H. destruct H as [->|H]; [|contradiction]. exists [], d, os. auto. }
  destruct S as (os1 & d & os2 & -> & N). rewrite last_at_app. cbn [last_at fst]. rewrite Z.eqb_refl. rewrite last_at_none by auto. exists os1, d, os2. auto.
Qed.
(** The table of options: accepted exactly if the RDATA is a list of complete options; each entry is the last
    option with the code. *)
Theorem c49_options : forall cl ttl rd os tail, bytes rd -> rd <> [] -> zlen rd < 65536 -> splits rd os tail ->
  (tail = [] -> exists t, edns_get_options (mkopt cl ttl (Some rd)) = Ok (KNOT_EOK, Some t) /\ zlen t = 18 /\ forall c, 0 <= c < 18 -> exists r, zget t c = Some r /\ last_pos c os r) /\
  (tail <> [] -> exists e, edns_get_options (mkopt cl ttl (Some rd)) = Ok (e, None) /\ e <> KNOT_EOK).
Proof.
  intros cl ttl rd os tail HB HN HL (E & HF & HT). unfold edns_get_options. cbn [o_rdata]. assert (zlen rd =? 0 = false) by (destruct rd; [congruence|rewrite zlen_cons; pose proof (zlen_nonneg rd); lia]). rewrite H.
  assert (BT : bytes tail) by (rewrite E in HB; apply bytes_app in HB; tauto). destruct (options_loop_spec os (S (length rd)) (wire_init_const rd) [] tail (repeat None 18)) as (w' & t' & -> & X1 & X2 & X3); auto.
  - rewrite <- E. apply at_init_const. lia.
  - rewrite E, app_length. pose proof (options_len os). destruct os; cbn [length] in *; [|lia]. cbn in E. subst tail. destruct rd; [congruence|cbn [length]; lia].
  - cbn [rbind]. split; intros HX.
    + rewrite (proj2 X1 HX). change (KNOT_EOK =? KNOT_EOK) with true. cbn [negb]. exists t'. split; auto. split; auto. intros c Hc. eexists. split; [apply X3; auto|]. replace (match zget (repeat None 18) c with Some x => x | None => None end) with (@None Z); [apply last_at_pos|].
      destruct (zget (repeat (@None Z) 18) c) eqn:EZ; auto. apply zget_In in EZ. apply repeat_spec in EZ. auto.
    + assert (NE : w_err w' <> KNOT_EOK) by tauto. replace (w_err w' =? KNOT_EOK) with false by (symmetry; apply Z.eqb_neq; auto). cbn [negb]. exists (w_err w'). auto.
Qed.

(** ** Adding *)
Lemma zskipn_zeros : forall n m, 0 <= n <= m -> zskipn n (zeros m) = zeros (m - n).
Proof. intros. unfold zskipn, zeros. replace (Z.to_nat m) with (Z.to_nat n + Z.to_nat (m - n))%nat by lia. rewrite repeat_app. replace (Z.to_nat n) with (length (repeat 0 (Z.to_nat n))) at 1 by apply repeat_length. rewrite skipn_app, skipn_all, Nat.sub_diag. reflexivity. Qed.
Lemma wr : forall w pre post d, at_ w pre post -> w_ro w = false -> zlen d <= zlen post -> exists w', wire_write w d = Ok w' /\ at_ w' (pre ++ d) (zskipn (zlen d) post) /\ w_ro w' = false.
Proof. intros w pre post d HA HR HL. destruct (c48_write w pre post d HA HR) as [W _]. auto. Qed.
Lemma clear_at : forall w pre post, at_ w pre post -> w_ro w = false -> exists w', wire_clear w (zlen post) = Ok w' /\ at_ w' (pre ++ zeros (zlen post)) [] /\ w_ro w' = false.
Proof.
  intros w pre post HA HR. pose proof (zlen_nonneg post). assert (ZL : zlen (zeros (zlen post)) = zlen post) by (apply zlen_zeros; auto). destruct (wr w pre post (zeros (zlen post)) HA HR) as (w' & E & A & R); [lia|]. exists w'. rewrite ZL in A. replace (zskipn (zlen post) post) with (@nil Z) in A by (unfold zskipn, zlen; rewrite Nat2Z.id; symmetry; apply skipn_all). split; auto.
  rewrite <- E. unfold wire_clear, wire_write. rewrite ZL. destruct (negb (w_err w =? KNOT_EOK)); auto.
Qed.
(** Adding an option appends it, if the result fits. *)
Theorem c49_add : forall cl ttl os code d, Forall opt_ok os -> opt_ok (code, d) -> zlen (options (os ++ [(code, d)])) < 65536 ->
  edns_add_option true (mkopt cl ttl (Some (options os))) code d = Ok (KNOT_EOK, mkopt cl ttl (Some (options (os ++ [(code, d)])))).
Proof.
  intros cl ttl os code d HF (O1 & O2 & O3) HL. cbn [fst snd] in *. assert (EQ : options (os ++ [(code, d)]) = options os ++ be 2 code ++ be 2 (zlen d) ++ d). { rewrite options_app, options_cons. change (options []) with (@nil Z). rewrite app_nil_r. reflexivity. }
  rewrite EQ in *. rewrite !zlen_app, !zlen_be2 in HL. unfold edns_add_option, edns_add. cbn [o_rdata o_class o_ttl]. cbv zeta. pose proof (zlen_nonneg d). pose proof (zlen_nonneg (options os)). unfold HDRLEN. replace (u16 (zlen (options os) + 4 + zlen d)) with (zlen (options os) + 4 + zlen d) by (unfold u16; rewrite Z.mod_small; lia).
  set (n := zlen (options os) + 4 + zlen d). assert (ZN : zlen (zeros n) = n) by (apply zlen_zeros; lia). destruct (wr (wire_init (zeros n)) [] (zeros n) (options os)) as (w1 & -> & A1 & R1); [apply at_init; lia|reflexivity|lia|]. cbn [rbind app] in *. rewrite zskipn_zeros in A1 by lia.
  assert (Z1 : zlen (zeros (n - zlen (options os))) = 4 + zlen d) by (rewrite zlen_zeros; lia). unfold wire_write_u16. destruct (wr w1 _ _ (be 2 code) A1 R1) as (w2 & -> & A2 & R2); [rewrite zlen_be2; lia|]. cbn [rbind]. rewrite zlen_be2, zskipn_zeros in A2 by lia.
  destruct (wr w2 _ _ (be 2 (zlen d)) A2 R2) as (w3 & -> & A3 & R3); [rewrite zlen_be2, zlen_zeros; lia|]. cbn [rbind]. rewrite zlen_be2, zskipn_zeros in A3 by lia. replace (n - zlen (options os) - 2 - 2) with (zlen d) in A3 by lia. assert (ZD : zlen (zeros (zlen d)) = zlen d) by (apply zlen_zeros; auto).
  destruct (clear_at w3 _ _ A3 R3) as (w4 & E4 & A4 & R4). rewrite ZD in E4, A4. rewrite E4. cbn [rbind]. rewrite (at_avail _ _ _ A4). rewrite zlen_nil. change (0 =? 0) with true. cbn [negb]. pose proof A4 as (B4 & _ & EE & _). rewrite EE. change (KNOT_EOK =? KNOT_EOK) with true. cbn [negb rbind o_rdata].
  assert (OF : wire_offset w3 = zlen ((options os ++ be 2 code) ++ be 2 (zlen d))). { destruct (at_wf _ _ _ A3) as [W3 _]. rewrite wf_offset by auto. destruct A3 as (_ & -> & _). auto. }
  rewrite OF, B4, app_nil_r. rewrite mem_write_ok; [|apply zlen_nonneg|rewrite (zlen_app (_ ++ _) (zeros _)), ZD; lia]. cbn [rbind]. rewrite zfirstn_app_exact. replace (zskipn _ _) with (@nil Z).
  2:{ symmetry. unfold zskipn. apply skipn_all2. rewrite app_length. unfold zlen, zeros. rewrite repeat_length. lia. }
  rewrite app_nil_r, <- !app_assoc. reflexivity.
Qed.
(** An option added is found, with its data, if none with the code was there. *)
Theorem c49_add_get : forall cl ttl os code d, Forall opt_ok os -> opt_ok (code, d) -> ~ In code (map fst os) -> zlen (options (os ++ [(code, d)])) < 65536 ->
  exists o' p rd, edns_add_option true (mkopt cl ttl (Some (options os))) code d = Ok (KNOT_EOK, o') /\ edns_get_option o' code None = Ok (Some p) /\ o_rdata o' = Some rd /\ opt_get_data rd p = Ok d.
Proof.
  intros cl ttl os code d HF HO HN HL. rewrite c49_add by auto. eexists _, _, _. split; [reflexivity|]. set (rd := options (os ++ [(code, d)])) in *.
  assert (HB : bytes rd). { unfold rd, options. apply Forall_flat_map. apply Forall_app. assert (OB : forall o, opt_ok o -> Forall byte (opt_enc o)) by (intros o (_ & Bo & _); unfold opt_enc; apply Forall_app; split; [apply be_bytes|]; apply Forall_app; split; [apply be_bytes|auto]). split; [eapply Forall_impl; [|exact HF]; auto|constructor; auto]. }
  destruct (c49_get cl ttl rd (os ++ [(code, d)]) [] code HB HL) as (r & Er & Hr). { split; [rewrite app_nil_r; auto|]. split; [apply Forall_app; auto|auto]. }
  assert (r = Some (zlen (options os))) as ->.
  { destruct r as [p|]; cbn [first_at] in Hr.
    - destruct Hr as (os1 & d1 & os2 & E & -> & N1). f_equal. rewrite Z.add_0_l. f_equal. f_equal. clear - E HN N1. revert os1 E N1. induction os as [|o os IH]; intros [|o1 os1] E N1; cbn [app] in E; auto.
      + injection E as <- E. exfalso. destruct os1; discriminate.
      + exfalso. injection E as -> E. apply HN. left. reflexivity.
      + injection E as -> E. apply (f_equal (cons o1)). apply IH; auto; intros X; [apply HN|apply N1]; right; auto.
    - exfalso. apply Hr. rewrite map_app. apply in_or_app. right. left. reflexivity. }
  rewrite Er. split; [reflexivity|]. split; [reflexivity|]. pose proof (c49_data os code d [] [] HO) as D. rewrite app_nil_r in D. exact D.
Qed.
(** Without room (64 KiB) the size wraps around and the code fails its assertion (or overruns memory); and if
    the memory cannot be allocated, the options present before are lost. *)
Theorem c49_add_overflow_refuted : exists os code d, Forall opt_ok os /\ opt_ok (code, d) /\ zlen (options os) < 65536 /\ edns_add_option true (mkopt 0 0 (Some (options os))) code d = UB.
Proof.
  exists [(1, zeros 65531)], 2, []. assert (Z5 : zlen (zeros 65531) = 65531) by (apply zlen_zeros; lia).
  assert (O1 : opt_ok (1, zeros 65531)). { unfold opt_ok. cbn [fst snd]. rewrite Z5. split; [lia|]. split; [|lia]. apply Forall_forall. intros x Hx. unfold zeros in Hx. apply repeat_spec in Hx. subst. unfold byte. lia. }
  assert (L : zlen (options [(1, zeros 65531)]) = 65535) by (cbn [options flat_map]; rewrite app_nil_r, zlen_opt; cbn [snd]; lia).
  split; [constructor; auto|]. split; [split; [cbn; lia|split; [constructor|cbn; lia]]|]. split; [lia|].
  unfold edns_add_option, edns_add. cbn [o_rdata]. rewrite L. change (zlen (@nil Z)) with 0. change (u16 (65535 + HDRLEN + 0)) with 3. cbv zeta.
  destruct (c48_write (wire_init (zeros 3)) [] (zeros 3) (options [(1, zeros 65531)])) as [_ W]; [apply at_init; reflexivity|reflexivity|]. rewrite W by (rewrite L; change (zlen (zeros 3)) with 3; lia). cbn [rbind]. reflexivity.
Qed.
Theorem c49_add_nomem_refuted : exists o o' code d, edns_add_option false o code d = Ok (KNOT_ENOMEM, o') /\ o_rdata o = Some (options [(3, [1; 2])]) /\ o_rdata o' = None.
Proof. exists (mkopt 0 0 (Some (options [(3, [1; 2])]))), (mkopt 0 0 None), 5, [7]. split; [vm_compute; reflexivity|]. split; reflexivity. Qed.

(** ** The flags and codes kept in the TTL: each setting changes only its field *)
Lemma ttl_byte_spec : forall ttl off, 0 <= off < 4 -> ttl_byte ttl off = Ok ((ttl / 256 ^ (3 - off)) mod 256).
Proof.
  intros ttl off H. unfold ttl_byte. assert (off = 0 \/ off = 1 \/ off = 2 \/ off = 3) as [-> | [-> | [-> | ->]]] by lia; cbv - [Z.div Z.modulo Z.pow Z.mul Z.add]; repeat match goal with |- context [0 * 256 + ?x] => change (0 * 256 + x) with x end; reflexivity.
Qed.
Lemma set_core : forall b0 b1 b2 b3 v off, off = 0 \/ off = 1 ->
  (let* w := wire_write (wire_set_offset (mkwire [b0; b1; b2; b3] 4 KNOT_EOK false) off) [v] in let* (t, _) := wire_read_u32 (wire_set_offset w 0) in Ok t) = Ok (unbe (zset [b0; b1; b2; b3] off v)).
Proof. intros b0 b1 b2 b3 v off [-> | ->]; reflexivity. Qed.
Lemma set_ttl_spec : forall cl ttl rd off v, 0 <= ttl < 2 ^ 32 -> byte v -> off = 0 \/ off = 1 ->
  set_value_to_ttl (mkopt cl ttl rd) off v = Ok (mkopt cl (unbe (zset (be 4 ttl) off v)) rd).
Proof.
  intros cl ttl rd off v HT Hv Ho; unfold byte in Hv; unfold set_value_to_ttl; cbn [o_ttl o_class o_rdata].
  replace (wire_write_u32 (wire_init (zeros 4)) ttl) with (Ok (mkwire (be 4 ttl) 4 KNOT_EOK false)) by reflexivity. cbn [rbind].
  unfold wire_write_u8. replace (be 1 v) with [v]. 2:{ cbn [be]. change (256 ^ Z.of_nat 0) with 1. rewrite Z.div_1_r, Z.mod_small by lia. reflexivity. }
  assert (exists b0 b1 b2 b3, be 4 ttl = [b0; b1; b2; b3]) as (b0 & b1 & b2 & b3 & ->) by (eexists _, _, _, _; reflexivity).
  pose proof (set_core b0 b1 b2 b3 v off Ho) as C. destruct (wire_write _ _) as [w| | |]; cbn [rbind] in *; try discriminate. destruct (wire_read_u32 _) as [[t w']| | |]; cbn [rbind] in *; try discriminate. injection C as ->. reflexivity.
Qed.
Lemma ttl_byte_unbe : forall l off, bytes l -> zlen l = 4 -> 0 <= off < 4 -> exists b, zget l off = Some b /\ ttl_byte (unbe l) off = Ok b.
Proof.
  intros l off HB HL Ho. destruct (zget_in_range l off) as [b Hb]; [lia|]. exists b. split; auto. unfold ttl_byte.
  replace (wire_write_u32 (wire_init (zeros 4)) (unbe l)) with (Ok (mkwire (be 4 (unbe l)) 4 KNOT_EOK false)) by reflexivity. cbn [rbind].
  replace 4%nat with (length l) by (unfold zlen in HL; lia). rewrite be_unbe by auto. clear HB. destruct l as [|b0 [|b1 [|b2 [|b3 [|]]]]]; rewrite ?zlen_cons, ?zlen_nil in HL; try lia. 2:{ pose proof (zlen_nonneg l). lia. }
  assert (off = 0 \/ off = 1 \/ off = 2 \/ off = 3) as [-> | [-> | [-> | ->]]] by lia; injection Hb as <-; reflexivity.
Qed.
Lemma four : forall ttl, 0 <= ttl < 2 ^ 32 -> exists b0 b1 b2 b3, be 4 ttl = [b0; b1; b2; b3] /\ byte b0 /\ byte b1 /\ byte b2 /\ byte b3 /\ ttl = ((b0 * 256 + b1) * 256 + b2) * 256 + b3.
Proof.
  intros ttl H. assert (exists b0 b1 b2 b3, be 4 ttl = [b0; b1; b2; b3]) as (b0 & b1 & b2 & b3 & E) by (eexists _, _, _, _; reflexivity). exists b0, b1, b2, b3. split; auto. pose proof (be_bytes 4 ttl) as B. rewrite E in B.
  apply bytes_cons in B. destruct B as [B0 B]. apply bytes_cons in B. destruct B as [B1 B]. apply bytes_cons in B. destruct B as [B2 B]. apply bytes_cons in B. destruct B as [B3 B]. do 4 (split; [auto|]).
  pose proof (unbe_be 4 ttl) as U. rewrite Z.mod_small in U by (change (256 ^ Z.of_nat 4) with (2 ^ 32); lia). rewrite E in U. cbn [unbe fold_left] in U. unfold unbe in U. cbn [fold_left] in U. lia.
Qed.
Lemma do_spec : forall cl ttl rd, edns_do (mkopt cl ttl rd) = Z.testbit ttl 15.
Proof.
  intros. unfold edns_do. cbn [o_ttl]. change 32768 with (2 ^ 15). destruct (Z.testbit ttl 15) eqn:E.
  - apply negb_true_iff. apply Z.eqb_neq. intros X. apply (f_equal (fun z => Z.testbit z 15)) in X. rewrite Z.land_spec, E, Z.pow2_bits_true, Z.bits_0 in X by lia. discriminate.
  - apply negb_false_iff. apply Z.eqb_eq. apply Z.bits_inj'. intros n Hn. rewrite Z.land_spec, Z.bits_0. rewrite Z.pow2_bits_eqb by lia. destruct (15 =? n) eqn:X; [|apply andb_false_r]. replace n with 15 by lia. rewrite E. reflexivity.
Qed.
Lemma do_mod : forall t t', t mod 65536 = t' mod 65536 -> Z.testbit t 15 = Z.testbit t' 15.
Proof. intros t t' H. rewrite <- (Z.mod_pow2_bits_low t 16 15), <- (Z.mod_pow2_bits_low t' 16 15) by lia. change (2 ^ 16) with 65536. rewrite H. auto. Qed.
(** The extended RCODE, the version and the DNSSEC OK flag: setting one leaves the others, the flags, the payload
    size and the options alone. *)
Theorem c49_set_ext_rcode : forall cl ttl rd v, 0 <= ttl < 2 ^ 32 -> byte v -> exists ttl', edns_set_ext_rcode (mkopt cl ttl rd) v = Ok (mkopt cl ttl' rd) /\ 0 <= ttl' < 2 ^ 32 /\
  edns_get_ext_rcode (mkopt cl ttl' rd) = Ok v /\ edns_get_version (mkopt cl ttl' rd) = edns_get_version (mkopt cl ttl rd) /\ ttl' mod 65536 = ttl mod 65536 /\ edns_do (mkopt cl ttl' rd) = edns_do (mkopt cl ttl rd).
Proof.
  intros cl ttl rd v HT Hv. unfold edns_set_ext_rcode. rewrite set_ttl_spec by auto. destruct (four ttl HT) as (b0 & b1 & b2 & b3 & E & B0 & B1 & B2 & B3 & ET). rewrite E. change (zset [b0; b1; b2; b3] 0 v) with [v; b1; b2; b3]. eexists. split; [reflexivity|].
  assert (U : unbe [v; b1; b2; b3] = ((v * 256 + b1) * 256 + b2) * 256 + b3) by reflexivity. rewrite U. unfold byte in *. unfold edns_get_ext_rcode, edns_get_version. cbn [o_ttl]. rewrite !ttl_byte_spec by lia. change (256 ^ (3 - 0)) with 16777216. change (256 ^ (3 - 1)) with 65536.
  split; [lia|]. split; [f_equal; lia|]. split; [f_equal; lia|]. assert (M : (((v * 256 + b1) * 256 + b2) * 256 + b3) mod 65536 = ttl mod 65536) by lia. split; auto. rewrite !do_spec. apply do_mod. auto.
Qed.
Theorem c49_set_version : forall cl ttl rd v, 0 <= ttl < 2 ^ 32 -> byte v -> exists ttl', edns_set_version (mkopt cl ttl rd) v = Ok (mkopt cl ttl' rd) /\ 0 <= ttl' < 2 ^ 32 /\
  edns_get_version (mkopt cl ttl' rd) = Ok v /\ edns_get_ext_rcode (mkopt cl ttl' rd) = edns_get_ext_rcode (mkopt cl ttl rd) /\ ttl' mod 65536 = ttl mod 65536 /\ edns_do (mkopt cl ttl' rd) = edns_do (mkopt cl ttl rd).
Proof.
  intros cl ttl rd v HT Hv. unfold edns_set_version. rewrite set_ttl_spec by auto. destruct (four ttl HT) as (b0 & b1 & b2 & b3 & E & B0 & B1 & B2 & B3 & ET). rewrite E. change (zset [b0; b1; b2; b3] 1 v) with [b0; v; b2; b3]. eexists. split; [reflexivity|].
  assert (U : unbe [b0; v; b2; b3] = ((b0 * 256 + v) * 256 + b2) * 256 + b3) by reflexivity. rewrite U. unfold byte in *. unfold edns_get_ext_rcode, edns_get_version. cbn [o_ttl]. rewrite !ttl_byte_spec by lia. change (256 ^ (3 - 0)) with 16777216. change (256 ^ (3 - 1)) with 65536.
  split; [lia|]. split; [f_equal; lia|]. split; [f_equal; lia|]. assert (M : (((b0 * 256 + v) * 256 + b2) * 256 + b3) mod 65536 = ttl mod 65536) by lia. split; auto. rewrite !do_spec. apply do_mod. auto.
Qed.
Theorem c49_set_do : forall cl ttl rd, 0 <= ttl < 2 ^ 32 -> exists ttl', edns_set_do (mkopt cl ttl rd) = mkopt cl ttl' rd /\ 0 <= ttl' < 2 ^ 32 /\ edns_do (mkopt cl ttl' rd) = true /\
  (forall i, 0 <= i -> i <> 15 -> Z.testbit ttl' i = Z.testbit ttl i) /\ edns_get_version (mkopt cl ttl' rd) = edns_get_version (mkopt cl ttl rd) /\ edns_get_ext_rcode (mkopt cl ttl' rd) = edns_get_ext_rcode (mkopt cl ttl rd).
Proof.
  intros cl ttl rd HT. unfold edns_set_do. cbn [o_class o_ttl o_rdata]. change 32768 with (2 ^ 15). set (t' := Z.lor ttl (2 ^ 15)). exists t'. split; auto.
  assert (BT : forall i, 0 <= i -> Z.testbit t' i = Z.testbit ttl i || (15 =? i)). { intros i Hi. unfold t'. rewrite Z.lor_spec, Z.pow2_bits_eqb by lia. auto. }
  assert (R : t' = ttl \/ t' = ttl + 32768 /\ Z.testbit ttl 15 = false).
  { destruct (Z.testbit ttl 15) eqn:E; [left|right; split; auto].
    - apply Z.bits_inj'. intros n Hn. rewrite BT by auto. destruct (15 =? n) eqn:X; [|apply orb_false_r]. replace n with 15 by lia. rewrite E. auto.
    - assert (L : Z.land ttl (2 ^ 15) = 0). { apply Z.bits_inj'. intros n Hn. rewrite Z.land_spec, Z.bits_0, Z.pow2_bits_eqb by lia. destruct (15 =? n) eqn:X; [|apply andb_false_r]. replace n with 15 by lia. rewrite E. reflexivity. }
      change 32768 with (2 ^ 15). rewrite Z.add_nocarry_lxor, Z.lxor_lor by auto. reflexivity. }
  assert (R2 : 0 <= t' < 2 ^ 32 /\ t' / 65536 = ttl / 65536). { destruct R as [->|[-> T]]; [split; auto; lia|]. apply Z.testbit_false in T; [|lia]. change (2 ^ 15) with 32768 in T. lia. } destruct R2 as [R2 R3].
  split; auto. split; [rewrite do_spec, BT by lia; apply orb_true_r|]. split; [intros i Hi Hn; rewrite BT by auto; replace (15 =? i) with false by lia; apply orb_false_r|].
  unfold edns_get_ext_rcode, edns_get_version. cbn [o_ttl]. rewrite !ttl_byte_spec by lia. change (256 ^ (3 - 0)) with (65536 * 256). change (256 ^ (3 - 1)) with 65536. rewrite <- !Z.div_div by lia. rewrite R3. auto.
Qed.
(** A new OPT record. *)
Theorem c49_init : forall p r v, byte r -> byte v -> exists o, edns_init p r v = Ok o /\ o_class o = p /\ o_rdata o = Some (options []) /\ edns_get_ext_rcode o = Ok r /\ edns_get_version o = Ok v /\ edns_do o = false.
Proof.
  intros p r v Hr Hv. unfold edns_init. destruct (c49_set_ext_rcode p 0 (Some []) r) as (t1 & -> & H1 & G1 & _ & _ & D1); [lia|auto|]. cbn [rbind]. destruct (c49_set_version p t1 (Some []) v) as (t2 & -> & H2 & G2 & K2 & _ & D2); [lia|auto|]. eexists. split; [reflexivity|].
  split; auto. split; auto. rewrite K2, G1, G2, D2, D1. auto.
Qed.

(** ** Padding *)
(** With an OPT record and a block size, the padding makes the size of the message a multiple of the block, and is
    shorter than the block; no padding exactly if the size already is one. *)
Theorem c49_padding : forall pkt opt block, 0 <= pkt <= 65535 -> 0 < opt <= 65535 -> 0 < block <= 65535 ->
  let r := edns_alignment_size pkt opt block in
  ((pkt + opt) mod block = 0 -> r = -1) /\ ((pkt + opt) mod block <> 0 -> 0 <= r < block /\ (pkt + opt + 4 + r) mod block = 0).
Proof.
  intros pkt opt block H1 H2 H3. unfold edns_alignment_size. replace ((opt =? 0) || (block =? 0)) with false by lia. cbv zeta. unfold u64, HDRLEN. rewrite (Z.mod_small (pkt + opt) (2 ^ 64)) by lia. rewrite (Z.mod_small (pkt + opt + 4) (2 ^ 64)) by lia.
  destruct ((pkt + opt) mod block =? 0) eqn:E; [apply Z.eqb_eq in E; split; [auto|intros X; contradiction]|apply Z.eqb_neq in E]. split; [intros X; contradiction|]. intros _. destruct ((pkt + opt + 4) mod block =? 0) eqn:E2; [rewrite Z.add_0_r; apply Z.eqb_eq in E2; split; [clear E2; lia|auto]|]. apply Z.eqb_neq in E2. pose proof (Z.mod_pos_bound (pkt + opt + 4) block ltac:(lia)) as B. remember ((pkt + opt + 4) mod block) as m eqn:EM. clear E. unfold to_int. rewrite (Z.mod_small (block - _) (2 ^ 64)) by (clear EM; lia). rewrite (Z.mod_small _ (2 ^ 32)) by (clear EM; lia). replace (_ >=? 2 ^ 31) with false by (clear EM; lia). split; [clear EM; lia|].
  rewrite Z.add_mod by lia. rewrite (Z.mod_small (block - m)) by (clear EM; lia). rewrite <- EM. replace (_ + (block - _)) with (1 * block) by lia. apply Z.mod_mul. lia.
Qed.
