(** Writing of records: one record and the whole RRset. *)
From Verif Require Import Base DnameModel DnameSpec DnameProofs DnameProofs2 WireModel WireProofs RrwireModel RrwireSpec RrwireProofs RrwireProofs2 RrwireProofs3 ComprModel ComprSpec ComprProofs ComprProofs2 ComprProofs3 ComprProofs4 ComprProofs5.

(** A record below [e] that needs no hidden byte *)
Definition rec_at (wn : win) (m : list Z) (pos : Z) (r : record) (e : Z) : Prop :=
  exists n rdlen, encodes (view wn m e) true pos (r_owner r) n /\ 1 <= n /\ 0 <= pos /\ e = pos + n + 10 + rdlen /\ (0 <= rdlen < 65536 /\ rdlen <= zlen (flat (r_data r))) /\ e <= zlen m /\
    holds m (pos + n) (be 2 (r_type r) ++ be 2 (r_class r) ++ be 4 (r_ttl r) ++ be 2 rdlen) /\ data_bytes (r_data r) /\
    pieces_at (view wn m e) e (pos + n + 10) (r_data r) e.
Inductive recs_at (wn : win) (m : list Z) : Z -> list record -> Z -> Prop :=
| rca_nil : forall pos, recs_at wn m pos [] pos
| rca_cons : forall pos r mid rs e, rec_at wn m pos r mid -> recs_at wn m mid rs e -> recs_at wn m pos (r :: rs) e.

Lemma rec_mono : forall wn m m' pos r e a b, rec_at wn m pos r e -> differ m m' a b -> e <= a -> rec_at wn m' pos r e.
Proof.
  intros wn m m' pos r e a b (n & rdlen & HE & Hn & Hp & He & Hr & Hm & HH & HD & HP) D Ha. exists n, rdlen. pose proof D as (DL & _). rewrite (view_differ wn m m' e a b) by (auto; lia).
  split; [auto|]. split; [auto|]. split; [auto|]. split; [auto|]. split; [auto|]. split; [lia|]. split; [|auto]. eapply holds_differ; [exact HH|exact D|]. rewrite !zlen_app, !be_length. lia.
Qed.
Lemma rec_pos : forall wn m pos r e, rec_at wn m pos r e -> 0 <= pos /\ pos + 11 <= e <= zlen m.
Proof. intros wn m pos r e (n & rdlen & HE & Hn & Hp & He & Hr & Hm & _). lia. Qed.
Lemma recs_pos : forall wn m pos rs e, recs_at wn m pos rs e -> pos <= e.
Proof. intros wn m pos rs e H. induction H; [lia|]. apply rec_pos in H. lia. Qed.
Lemma recs_mono : forall wn m m' pos rs e a b, recs_at wn m pos rs e -> differ m m' a b -> e <= a -> recs_at wn m' pos rs e.
Proof.
  intros wn m m' pos rs e a b H D. induction H; intros Ha; [constructor|]. econstructor; [eapply rec_mono; [eauto|eauto|]|auto]. pose proof (recs_pos _ _ _ _ _ H0). lia.
Qed.
Lemma recs_snoc : forall wn m pos rs mid r e, recs_at wn m pos rs mid -> rec_at wn m mid r e -> recs_at wn m pos (rs ++ [r]) e.
Proof. intros wn m pos rs mid r e H. induction H; intros HR; cbn [app]; econstructor; eauto. constructor. Qed.
Lemma recs_app : forall wn m pos rs mid rs' e, recs_at wn m pos rs mid -> recs_at wn m mid rs' e -> recs_at wn m pos (rs ++ rs') e.
Proof. intros wn m pos rs mid rs' e H. induction H; intros HR; cbn [app]; [auto|]. econstructor; eauto. Qed.

Lemma view_real : forall wn m e m', bytes m -> 0 <= e <= zlen m -> (forall i, 0 <= i < e -> hidden wn i = false -> zget m' i = zget m i) ->
  (forall i b, zget (view wn m e) i = Some b -> b = MASK \/ byte b) /\ (forall i b, b <> MASK -> zget (view wn m e) i = Some b -> zget m' i = Some b).
Proof. intros wn m e m' HB He HV. split; [intros; eapply view_byte; eauto; lia|]. intros i b Hb Hg. apply in_view in Hg; auto. destruct Hg as (Hg & HR & HH). rewrite HV; auto. Qed.
Definition small (r : record) : Prop := 0 <= r_type r < 65536 /\ 0 <= r_class r < 65536 /\ 0 <= r_ttl r < 2 ^ 32.
(** The record is in the message, whatever the hidden bytes and those behind it are. *)
Lemma rec_real : forall wn m m' pos r e, rec_at wn m pos r e -> bytes m -> small r -> free wn pos -> e <= zlen m' -> (forall i, 0 <= i < e -> hidden wn i = false -> zget m' i = zget m i) -> compact_at m' pos r e.
Proof.
  intros wn m m' pos r e (n & rdlen & HE & Hn & Hp & He & Hr & Hm & HH & HD & HP) HB (HT & HC & HL) HF Hm' HV. destruct (view_real wn m e m' HB ltac:(lia) HV) as [V1 V2].
  assert (HH' : holds m' (pos + n) (be 2 (r_type r) ++ be 2 (r_class r) ++ be 4 (r_ttl r) ++ be 2 rdlen)).
  { intros i Hi. rewrite <- (HH i Hi). rewrite !zlen_app, !be_length in Hi. apply HV; [lia|]. eapply free_visible; [exact HF|lia]. }
  apply holds_app_inv in HH'. destruct HH' as [H1 HH']. apply holds_app_inv in HH'. destruct HH' as [H2 HH']. apply holds_app_inv in HH'. destruct HH' as [H3 H4]. rewrite !be_length in *.
  exists (pos + n + 10). split.
  - exists n, rdlen. split; [revert HE; apply enc_mono; auto|]. split; [auto|]. split; [lia|]. split; [lia|]. split; [apply holds_u16; auto|]. split; [apply holds_u16; auto|].
    split; [apply holds_u32; [auto|]; replace (pos + n + 4) with (pos + n + Z.of_nat 2 + Z.of_nat 2) by lia; auto|]. apply holds_u16; [lia|]. replace (pos + n + 8) with (pos + n + Z.of_nat 2 + Z.of_nat 2 + Z.of_nat 4) by lia. auto.
  - split; [|lia]. revert HP. apply pieces_up; auto; rewrite ?zlen_view; lia.
Qed.
Lemma recs_real : forall wn m m' pos rs e, recs_at wn m pos rs e -> bytes m -> Forall small rs -> free wn pos -> e <= zlen m' -> (forall i, 0 <= i < e -> hidden wn i = false -> zget m' i = zget m i) -> records_at m' pos rs e.
Proof.
  intros wn m m' pos rs e H HB. induction H; intros HS HF He HV; [constructor|]. inversion HS as [|? ? S1 S2]; subst. pose proof (rec_pos _ _ _ _ _ H). pose proof (recs_pos _ _ _ _ _ H0).
  econstructor; [eapply rec_real; [eauto|auto|auto|auto|lia|]|apply IHrecs_at; auto].
  - intros i Hi. apply HV. lia.
  - eapply free_more; [exact HF|lia].
Qed.

Lemma flat_len_eq : forall ps ps', map lower_piece ps' = map lower_piece ps -> zlen (flat ps') = zlen (flat ps).
Proof.
  induction ps as [|p ps IH]; intros [|p' ps'] H; try discriminate; [reflexivity|]. cbn [map] in H. injection H as H1 H2. specialize (IH _ H2). destruct p, p'; cbn [lower_piece] in H1; inversion H1; subst; cbn [flat]; rewrite !zlen_app, IH; [auto|].
  rewrite !zlen_wire. f_equal. transitivity (name_size (lower_name ls0)); [symmetry; apply lower_name_size|]. rewrite H0. apply lower_name_size.
Qed.
Lemma write_rr_spec : forall al nr lo s ls j t c ttl i ps o sm, good al nr (mkwin lo (-2)) s -> legal_name ls -> (nr = true <-> ls <> []) -> (forall x, al 0 x <-> x = lower_name ls) ->
  rdata_ok o sm t ps -> 0 <= t < 65536 -> 0 <= c < 65536 -> 0 <= ttl < 2 ^ 32 -> 0 <= i -> (forall ls, In (PName ls) ps -> al (1 + i) (lower_name ls)) ->
  match write_rr (dwire ls ++ j) t c ttl i (flat ps) o sm s with
  | Done _ s' => exists n r, adv s s' n /\ n <= record_size ls ps /\ good al nr (mkwin lo (-2)) s' /\ rec_at (mkwin lo (-2)) (s_mem s') (s_dst s) r (s_dst s + n) /\ sent o sm ls t c ttl ps r /\ small r /\
      (s_compr s = None -> r_owner r = ls /\ r_data r = ps /\ n = record_size ls ps)
  | Fail e s' => e = KNOT_ESPACE /\ s_avail s < record_size ls ps /\ failed s s'
  | _ => False
  end.
Proof.
  intros al nr lo s ls j t c ttl i ps o sm HG HL Hnr Hal0 HR Ht Hc Hl Hi Hal. set (wn := mkwin lo (-2)) in *. unfold record_size. pose proof (zlen_nonneg (flat ps)). pose proof (name_size_ge1 ls).
  unfold write_rr. unfold bind at 1. pose proof (write_owner_spec al nr wn s ls j HG HL Hnr Hal0) as WO.
  destruct (write_owner (dwire ls ++ j) s) as [u s1|e s1| |]; try contradiction. 2: { destruct WO as (-> & Hgt & Hf). split; [auto|]. split; [lia|auto]. }
  destruct WO as (n1 & ls' & A1 & (Hn1 & HE & HLs & Hlow & NS) & G1 & Hx1). pose proof A1 as (D1 & Sd1 & Sa1 & Hn1' & C1). unfold bind.
  pose proof (fixed_header_spec al nr wn s1 t c ttl ps o sm G1 HR Hl) as FH.
  destruct (write_fixed_header t c ttl (flat ps) o sm s1) as [u2 s2|e s2| |]; try contradiction. 2: { destruct FH as (-> & Hgt & Hf). split; [auto|]. split; [lia|eapply adv_failed; eauto]. }
  destruct FH as (A2 & G2 & C2 & v & HS & Hv & HH). pose proof A2 as (D2 & Sd2 & Sa2 & Hn2' & _). pose proof (adv_trans _ _ _ _ _ A1 A2) as A12.
  pose proof (write_rdata_spec al nr lo s2 t i ps o sm G2 HR Hi Hal) as WR.
  destruct (write_rdata t i (flat ps) s2) as [u3 s3|e s3| |]; try contradiction. 2: { destruct WR as (-> & Hgt & Hf). split; [auto|]. split; [lia|eapply adv_failed; eauto]. }
  destruct WR as (n & ps' & A3 & Hn & G3 & HMap & HLay & Hn16 & HH2 & HD & HP & Hx3). pose proof A3 as (D3 & Sd3 & Sa3 & Hn3' & _). pose proof (adv_trans _ _ _ _ _ A12 A3) as A123.
  pose proof HG as ((HB & HF & Ha & Hle & H64) & _). pose proof HF as (Hd & _). pose proof D1 as (DL1 & DB1 & _). pose proof D2 as (DL2 & DB2 & DD2). pose proof D3 as (DL3 & DB3 & DD3).
  pose proof (flat_len_eq _ _ HMap) as HFL. exists (n1 + 8 + (2 + n)), (mkrecord ls' t c v ps'). split; [exact A123|]. split; [lia|]. split; [exact G3|].
  split. { exists n1, n. cbn [r_owner r_type r_class r_ttl r_data]. split.
    - eapply view_mono'; [apply DB1; exact HB|apply wider_refl| | | |  |exact HE]; try lia. intros k Hk _. rewrite DD3 by lia. apply DD2. lia.
    - do 5 (split; [lia|]). split; [|split; [auto|]].
      + rewrite !app_assoc. apply holds_app.
        * rewrite <- !app_assoc. rewrite Sd1 in HH. eapply holds_differ; [exact HH|exact D3|rewrite !zlen_app, !be_length; lia].
        * rewrite !zlen_app, !be_length. replace (s_dst s + n1 + (Z.of_nat 2 + Z.of_nat 2 + Z.of_nat 4)) with (s_dst s2) by lia. exact HH2.
      + replace (s_dst s + (n1 + 8 + (2 + n))) with (s_dst s2 + 2 + n) by lia. replace (s_dst s + n1 + 10) with (s_dst s2 + 2) by lia. exact HP. }
  split. { unfold sent. cbn [r_owner r_type r_class r_ttl r_data]. do 7 (split; [auto|]). intros HN. apply Hx3. auto. }
  split; [unfold small; cbn [r_type r_class r_ttl]; auto|]. cbn [r_owner r_data]. intros HC. destruct (Hx1 HC) as [-> ->]. destruct Hx3 as [-> ->]; [left; rewrite C2; tauto|]. split; [auto|]. split; [auto|lia].
Qed.

(** ** The loop *)
Definition posn (count i : Z) : Z := if i <? count then i else i - count.
Definition picked (pss : list (list piece)) (n : nat) (i : Z) : list (list piece) := map (fun k => nth (Z.to_nat (posn (zlen pss) (i + Z.of_nat k))) pss []) (seq 0 n).
Lemma picked_S : forall pss n i, picked pss (S n) i = nth (Z.to_nat (posn (zlen pss) i)) pss [] :: picked pss n (i + 1).
Proof.
  intros. unfold picked. cbn [seq map]. rewrite Z.add_0_r. f_equal. rewrite <- seq_shift, map_map. apply map_ext. intros k. do 3 f_equal. lia.
Qed.
Lemma skip_next : forall (A : Type) a (l : list A) x r, skipn a l = x :: r -> skipn (S a) l = r.
Proof. induction a; intros l x r H; [cbn in H; subst; reflexivity|]. destruct l; [discriminate|]. cbn [skipn] in H. apply IHa in H. exact H. Qed.
Lemma nth_seq : forall (A : Type) (d : A) b a l, (a + b <= length l)%nat -> map (fun k => nth (a + k) l d) (seq 0 b) = firstn b (skipn a l).
Proof.
  induction b; intros a l H; [reflexivity|]. cbn [seq map]. rewrite <- seq_shift, map_map. destruct (skipn a l) as [|x r] eqn:E.
  - apply (f_equal (@length A)) in E. rewrite skipn_length in E. cbn in E. lia.
  - cbn [firstn]. assert (Hx : nth (a + 0) l d = x). { replace l with (firstn a l ++ skipn a l) by apply firstn_skipn. rewrite app_nth2; rewrite firstn_length; [|lia]. replace (_ - _)%nat with 0%nat by lia. rewrite E. reflexivity. }
    rewrite Hx. f_equal. transitivity (map (fun k => nth (S a + k) l d) (seq 0 b)); [apply map_ext; intros; f_equal; lia|]. rewrite IHb by lia. f_equal.
    eapply skip_next. exact E.
Qed.
Lemma picked_rotate : forall pss r, (r <= length pss)%nat -> picked pss (length pss) (Z.of_nat r) = skipn r pss ++ firstn r pss.
Proof.
  intros pss r Hr. unfold picked. replace (length pss) with ((length pss - r) + r)%nat at 1 by lia. rewrite seq_app, map_app. f_equal.
  - rewrite <- (firstn_all (skipn r pss)), skipn_length. rewrite <- (nth_seq _ []) by lia. apply map_ext_in. intros k Hk. apply in_seq in Hk. f_equal. unfold posn, zlen. replace (_ <? _) with true by lia. lia.
  - replace (firstn r pss) with (firstn r (skipn 0 pss)) by reflexivity. rewrite <- (nth_seq _ []) by lia. rewrite <- (Nat.add_0_r (0 + (length pss - r))%nat).
    transitivity (map (fun k => nth (Z.to_nat (posn (zlen pss) (Z.of_nat r + Z.of_nat ((length pss - r) + k)))) pss []) (seq 0 r)).
    + generalize (length pss - r)%nat as a. intros a. rewrite Nat.add_0_r. cbn [Nat.add]. assert (S : forall b c, seq (a + c) b = map (fun k => (a + k)%nat) (seq c b)). { induction b; intros c; [reflexivity|]. cbn [seq map]. f_equal. replace (S (a + c)) with (a + S c)%nat by lia. apply IHb. }
      specialize (S r 0%nat). rewrite Nat.add_0_r in S. rewrite S, map_map. reflexivity.
    + apply map_ext_in. intros k Hk. apply in_seq in Hk. f_equal. unfold posn, zlen. replace (_ <? _) with false by lia. lia.
Qed.

(** what the hints may point to: the owner, and names in the RDATA of the record *)
Definition allowed (ls : list label) (pss : list (list piece)) (id : Z) (x : list label) : Prop :=
  (id = 0 /\ x = lower_name ls) \/ (1 <= id /\ exists ps l, nth_error pss (Z.to_nat (id - 1)) = Some ps /\ In (PName l) ps /\ x = lower_name l).

Lemma size_nonneg : forall ls l, 0 <= records_size ls l.
Proof. intros ls l. induction l as [|ps l IH]; cbn [records_size fold_right]; [lia|]. fold (records_size ls l). unfold record_size. pose proof (name_size_ge1 ls). pose proof (zlen_nonneg (flat ps)). lia. Qed.

Definition nonroot (ls : list label) : bool := match ls with [] => false | _ => true end.
Lemma nonroot_iff : forall ls, nonroot ls = true <-> ls <> []. Proof. intros [|]; cbn; split; congruence. Qed.

Lemma write_loop_spec : forall lo ls t c ttl pss o sm, legal_name ls -> Forall (rdata_ok o sm t) pss -> 0 <= t < 65536 -> 0 <= c < 65536 -> 0 <= ttl < 2 ^ 32 ->
  forall n i rdata s, 0 <= i -> i + Z.of_nat n <= 2 * zlen pss -> (posn (zlen pss) i <> 0 -> rdata = posn (zlen pss) i - 1) -> good (allowed ls pss) (nonroot ls) (mkwin lo (-2)) s ->
  match write_loop n (mkrrset (dwire ls) t c ttl (map flat pss)) i rdata o sm s with
  | Done _ s' => exists k rs, adv s s' k /\ k <= records_size ls (picked pss n i) /\ good (allowed ls pss) (nonroot ls) (mkwin lo (-2)) s' /\ recs_at (mkwin lo (-2)) (s_mem s') (s_dst s) rs (s_dst s + k) /\
      Forall2 (sent o sm ls t c ttl) (picked pss n i) rs /\ Forall small rs /\
      (s_compr s = None -> Forall (fun r => r_owner r = ls) rs /\ map r_data rs = picked pss n i /\ k = records_size ls (picked pss n i))
  | Fail e s' => e = KNOT_ESPACE /\ s_avail s < records_size ls (picked pss n i) /\ failed s s'
  | _ => False
  end.
Proof.
  intros lo ls t c ttl pss o sm HL HOK Ht Hc Hl. induction n as [|n IH]; intros i rdata s Hi Hin Hrd HG.
  - cbn [write_loop ret picked seq map records_size fold_right]. exists 0, []. replace (s_dst s + 0) with (s_dst s) by lia. pose proof HG as ((HB & HF & Ha & Hle & H64) & _).
    split. { split; [apply differ_refl|]. split; [lia|]. split; [lia|]. split; [lia|tauto]. } split; [lia|]. split; [auto|]. split; [constructor|]. split; [constructor|]. split; [constructor|]. intros _. split; [constructor|auto].
  - cbn [write_loop]. cbn [rs_rdata rs_owner rs_type rs_class rs_ttl]. replace (zlen (map flat pss)) with (zlen pss) by (unfold zlen; rewrite map_length; auto). fold (posn (zlen pss) i).
    set (p := posn (zlen pss) i) in *. assert (Hp : 0 <= p < zlen pss) by (unfold p, posn; destruct (i <? zlen pss) eqn:E; lia).
    assert (HIx : (if negb (p =? 0) then rdata + 1 else 0) = p). { destruct (p =? 0) eqn:E; cbn [negb]; [lia|]. rewrite Hrd by lia. lia. } rewrite HIx.
    assert (HNE : exists ps, nth_error pss (Z.to_nat p) = Some ps). { destruct (nth_error pss (Z.to_nat p)) eqn:E; [eauto|]. apply nth_error_None in E. unfold zlen in Hp. lia. }
    destruct HNE as (ps & HNE). pose proof (nth_error_nth _ _ [] HNE) as HNth. rewrite picked_S. fold p. rewrite HNth. cbn [records_size fold_right]. fold (records_size ls (picked pss n (i + 1))). pose proof (size_nonneg ls (picked pss n (i + 1))) as SN.
    unfold bind at 1. unfold rdata_at. replace (p <? 0) with false by lia. rewrite (map_nth_error flat _ _ HNE). cbn [lift]. unfold bind.
    assert (HO : rdata_ok o sm t ps) by (eapply Forall_forall; [exact HOK|eapply nth_error_In; eauto]).
    pose proof (write_rr_spec (allowed ls pss) (nonroot ls) lo s ls [] t c ttl p ps o sm HG HL (nonroot_iff ls)) as WR. rewrite app_nil_r in WR.
    specialize (WR ltac:(intros x; unfold allowed; split; [intros [[_ H]|[H _]]; [auto|lia]|intros; left; auto]) HO Ht Hc Hl ltac:(lia)).
    specialize (WR ltac:(intros l Hl'; right; split; [lia|]; exists ps, l; replace (1 + p - 1) with p by lia; auto)).
    destruct (write_rr (dwire ls) t c ttl p (flat ps) o sm s) as [u s1|e s1| |]; try contradiction. 2: { destruct WR as (-> & Hgt & Hf). split; [auto|]. split; [lia|auto]. }
    destruct WR as (k1 & r & A1 & Hk1 & G1 & HR & HS & HSm & Hx). pose proof A1 as (D1 & Sd1 & Sa1 & Hn1 & C1).
    specialize (IH (i + 1) p s1 ltac:(lia) ltac:(lia)).
    specialize (IH ltac:(intros Hnz; unfold p, posn in *; destruct (i <? zlen pss) eqn:E1; destruct (i + 1 <? zlen pss) eqn:E2; lia) G1).
    destruct (write_loop n _ (i + 1) p o sm s1) as [u2 s2|e s2| |]; try contradiction. 2: { destruct IH as (-> & Hgt & Hf). split; [auto|]. split; [lia|eapply adv_failed; eauto]. }
    destruct IH as (k2 & rs & A2 & Hk2 & G2 & HR2 & HS2 & HSm2 & Hx2). pose proof A2 as (D2 & Sd2 & Sa2 & Hn2 & C2).
    exists (k1 + k2), (r :: rs). split; [eapply adv_trans; eauto|]. split; [lia|]. split; [auto|]. split. { econstructor; [eapply rec_mono; [exact HR|exact D2|lia]|]. rewrite Sd1 in HR2. replace (s_dst s + (k1 + k2)) with (s_dst s + k1 + k2) by lia. exact HR2. }
    split; [constructor; auto|]. split; [constructor; auto|]. intros HC. destruct (Hx HC) as (X1 & X2 & X3). destruct Hx2 as (Y1 & Y2 & Y3); [tauto|]. split; [constructor; auto|]. cbn [map]. split; [rewrite X2, Y2; auto|lia].
Qed.

Definition rotated (rotate : Z) (l : list (list piece)) : list (list piece) :=
  let k := Z.to_nat (if zlen l =? 0 then 0 else rotate mod zlen l) in skipn k l ++ firstn k l.

Lemma to_wire_spec : forall lo ls t c ttl pss rotate o sm s, legal_name ls -> Forall (rdata_ok o sm t) pss -> 0 <= t < 65536 -> 0 <= c < 65536 -> 0 <= ttl < 2 ^ 32 -> 0 <= rotate ->
  good (allowed ls pss) (nonroot ls) (mkwin lo (-2)) s ->
  match to_wire_extra (mkrrset (dwire ls) t c ttl (map flat pss)) rotate o sm s with
  | Done k s' => exists rs, adv s s' k /\ k <= records_size ls (rotated rotate pss) /\ good (allowed ls pss) (nonroot ls) (mkwin lo (-2)) s' /\ recs_at (mkwin lo (-2)) (s_mem s') (s_dst s) rs (s_dst s + k) /\
      Forall2 (sent o sm ls t c ttl) (rotated rotate pss) rs /\ Forall small rs /\
      (s_compr s = None -> Forall (fun r => r_owner r = ls) rs /\ map r_data rs = rotated rotate pss /\ k = records_size ls (rotated rotate pss))
  | Fail e s' => e = KNOT_ESPACE /\ s_avail s < records_size ls (rotated rotate pss) /\ failed s s'
  | _ => False
  end.
Proof.
  intros lo ls t c ttl pss rotate o sm s HL HOK Ht Hc Hl Hrot HG. unfold to_wire_extra. cbn [rs_rdata]. replace (zlen (map flat pss)) with (zlen pss) by (unfold zlen; rewrite map_length; auto). rewrite map_length. unfold rotated.
  destruct (zlen pss =? 0) eqn:E0.
  { assert (pss = []) by (apply zlen_0_nil; lia). subst pss. cbn. exists []. pose proof HG as ((HB & HF & Ha & Hle & H64) & _). replace (s_dst s + 0) with (s_dst s) by lia.
    split. { split; [apply differ_refl|]. split; [lia|]. split; [lia|]. split; [lia|tauto]. } split; [lia|]. split; [auto|]. split; [constructor|]. split; [constructor|]. split; [constructor|]. intros _. split; [constructor|auto]. }
  pose proof (zlen_nonneg pss). set (k0 := rotate mod zlen pss). assert (Hk0 : 0 <= k0 < zlen pss) by (apply Z.mod_pos_bound; lia).
  assert (HR : (if negb (rotate =? 0) then k0 else rotate) = k0). { destruct (rotate =? 0) eqn:E; cbn [negb]; [|auto]. assert (rotate = 0) by lia. subst rotate. reflexivity. } rewrite HR.
  unfold bind at 1. cbn [get]. unfold bind at 1.
  assert (HP : picked pss (length pss) k0 = skipn (Z.to_nat k0) pss ++ firstn (Z.to_nat k0) pss). { rewrite <- picked_rotate by (unfold zlen in *; lia). f_equal. lia. } rewrite <- HP.
  pose proof (write_loop_spec lo ls t c ttl pss o sm HL HOK Ht Hc Hl (length pss) k0 (if k0 >? 1 then k0 - 1 else 0) s ltac:(lia) ltac:(unfold zlen in *; lia)) as WL.
  specialize (WL ltac:(unfold posn; replace (k0 <? zlen pss) with true by lia; destruct (k0 >? 1) eqn:E; lia) HG).
  destruct (write_loop _ _ _ _ _ _ s) as [u s1|e s1| |]; try contradiction; [|exact WL]. destruct WL as (k & rs & A & Hk & G & HRs & HS & HSm & Hx). unfold bind. cbn [get ret]. pose proof A as (_ & Sd & _). replace (s_dst s1 - s_dst s) with k by lia.
  exists rs. auto 10.
Qed.
