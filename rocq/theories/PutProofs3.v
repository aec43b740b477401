(** Filling of messages: putting of an RRset. *)
From Verif Require Import Base DnameModel DnameSpec DnameProofs DnameProofs2 WireModel WireProofs RrwireModel RrwireSpec RrwireProofs RrwireProofs2 RrwireProofs3 ComprModel ComprSpec ComprProofs ComprProofs2 ComprProofs3 ComprProofs4 ComprProofs5 ComprProofs6 PutModel PutSpec PutProofs PutProofs2.

(** ** Without a context there is none afterwards *)
Definition pres {A} (f : st -> out A) : Prop := forall s, s_compr s = None -> match f s with Done _ s' | Fail _ s' => s_compr s' = None | _ => True end.
Lemma pres_bind : forall A B (f : st -> out A) (g : A -> st -> out B), pres f -> (forall a, pres (g a)) -> pres (bind f g).
Proof. intros A B f g Hf Hg s Hs. unfold bind. specialize (Hf s Hs). destruct (f s); auto. apply Hg. auto. Qed.
Lemma pres_get : forall B (g : st -> st -> out B), (forall x, s_compr x = None -> pres (g x)) -> pres (bind get g).
Proof. intros B g H s Hs. unfold bind, get. apply H; auto. Qed.
Lemma pres_ret : forall A (a : A), pres (ret a). Proof. intros A a s H. exact H. Qed.
Lemma pres_fail : forall A e, pres (@fail A e). Proof. intros A e s H. exact H. Qed.
Lemma pres_lift : forall A (r : res A), pres (lift r). Proof. intros A [] s H; cbn; auto. Qed.
Lemma pres_put : forall o l, pres (put o l). Proof. intros o l s H. unfold put. destruct (_ || _); cbn; auto. Qed.
Lemma pres_move : forall n, pres (move n). Proof. intros n s H. exact H. Qed.
Lemma pres_crash : forall A, pres (fun _ => @Crash A). Proof. intros A s H. exact I. Qed.
Ltac pres_tac := repeat match goal with
  | |- pres (bind get _) => apply pres_get; intros ? ?; repeat match goal with H : s_compr _ = None |- _ => rewrite H end; cbn iota
  | |- pres (bind _ _) => apply pres_bind; [|intros ?]
  | |- pres (ret _) => apply pres_ret
  | |- pres (fail _) => apply pres_fail
  | |- pres (lift _) => apply pres_lift
  | |- pres (put _ _) => apply pres_put
  | |- pres (move _) => apply pres_move
  | |- pres (fun _ => Crash) => apply pres_crash
  | |- pres (if ?b then _ else _) => destruct b
  end.
Lemma pres_dname : forall d dst max use, pres (compr_put_dname d dst max use).
Proof. intros. unfold compr_put_dname, dname_to_wire. apply pres_get. intros x Hx. rewrite Hx. destruct use; pres_tac. Qed.
Lemma pres_ptr : forall id, pres (compr_get_ptr id). Proof. intros. unfold compr_get_ptr. pres_tac. Qed.
Lemma pres_set : forall id a n, pres (compr_set_ptr id a n). Proof. intros. unfold compr_set_ptr. pres_tac. Qed.
Lemma pres_be : forall n v, pres (write_be n v). Proof. intros. unfold write_be. pres_tac. Qed.
Lemma pres_owner : forall d, pres (write_owner d).
Proof.
  intros. unfold write_owner. apply pres_bind; [apply pres_lift|intros c0]. apply pres_bind; [destruct (negb _); [apply pres_ptr|apply pres_ret]|intros o].
  apply pres_get. intros x Hx. rewrite Hx. destruct (o >? 0); [unfold put_pointer; pres_tac|]. apply pres_bind; [apply pres_ret|intros e]. apply pres_bind; [apply pres_ret|intros _]. apply pres_bind; [apply pres_dname|intros w]. apply pres_bind; [apply pres_set|intros _; apply pres_move].
Qed.
Lemma pres_fixed : forall src n, pres (write_fixed src n). Proof. intros. unfold write_fixed. pres_tac. Qed.
Lemma pres_crd : forall src use h, pres (compress_rdata_dname src use h).
Proof.
  intros. unfold compress_rdata_dname. apply pres_bind; [apply pres_lift|intros n]. apply pres_get. intros x Hx. apply pres_bind; [apply pres_dname|intros w]. apply pres_bind; [apply pres_ptr|intros k].
  apply pres_bind; [destruct (k =? 0); [apply pres_set|apply pres_ret]|intros _]. pres_tac.
Qed.
Lemma pres_traverse : forall bl src h, pres (traverse_write bl src h).
Proof.
  induction bl as [|b bl IH]; intros; cbn [traverse_write]; [apply pres_ret|]. apply pres_bind; [|intros; apply IH]. destruct b; try apply pres_crd; try apply pres_fixed. unfold write_naptr. apply pres_bind; [apply pres_lift|intros; apply pres_fixed].
Qed.
Lemma pres_rr : forall d t c ttl i r o sm, pres (write_rr d t c ttl i r o sm).
Proof.
  intros. unfold write_rr, write_fixed_header, write_rdata. apply pres_bind; [apply pres_owner|intros _]. apply pres_bind.
  - apply pres_bind; [pres_tac|intros v]. apply pres_bind; [apply pres_be|intros _]. apply pres_bind; [apply pres_be|intros _]. apply pres_be.
  - intros _. apply pres_get. intros x Hx. destruct (2 >? s_avail x); [apply pres_fail|]. apply pres_bind; [apply pres_move|intros _]. apply pres_bind; [destruct (zlen r >? 0); [apply pres_traverse|apply pres_ret]|intros src]. pres_tac.
Qed.
Lemma pres_loop : forall n rs i r o sm, pres (write_loop n rs i r o sm).
Proof. induction n; intros; cbn [write_loop]; [apply pres_ret|]. apply pres_bind; [apply pres_lift|intros]. apply pres_bind; [apply pres_rr|intros]. apply IHn. Qed.
Lemma pres_to_wire : forall rs r o sm, pres (to_wire_extra rs r o sm).
Proof. intros. unfold to_wire_extra. destruct (_ =? 0); [apply pres_ret|]. apply pres_get. intros x Hx. apply pres_bind; [apply pres_loop|intros]. pres_tac. Qed.

(** ** With the root as the owner the suffix is not used *)
Lemma root_owner : forall w d a h p l p' l' n, wire_labels w 12 = Ok n -> write_owner (dwire []) (mkst w d a (Some (mkcompr h p l))) = write_owner (dwire []) (mkst w d a (Some (mkcompr h p' l'))).
Proof.
  intros w d a h p l p' l' n Hn. unfold write_owner. change (rd0 (dwire [])) with (@Ok Z 0). unfold bind, get, ret, lift. cbn -[compr_put_dname compr_set_ptr move wire_labels dname_max u16 u8 Z.eqb]. change (0 =? 0) with true. cbn [negb]. cbn -[compr_put_dname compr_set_ptr move wire_labels dname_max u16 u8 Z.eqb andb]. rewrite !andb_false_r.
  unfold with_compr. cbn [s_mem s_dst s_avail]. rewrite Hn. reflexivity.
Qed.
Lemma root_to_wire : forall t c ttl rd rot o sm w d a h p l p' l' n, rd <> [] -> wire_labels w 12 = Ok n ->
  to_wire_extra (mkrrset (dwire []) t c ttl rd) rot o sm (mkst w d a (Some (mkcompr h p l))) = to_wire_extra (mkrrset (dwire []) t c ttl rd) rot o sm (mkst w d a (Some (mkcompr h p' l'))).
Proof.
  intros t c ttl rd rot o sm w d a h p l p' l' n Hr Hn. unfold to_wire_extra. cbn [rs_rdata]. replace (zlen rd =? 0) with false by (destruct rd; [congruence|rewrite zlen_cons; pose proof (zlen_nonneg rd); lia]).
  unfold bind, get. destruct rd as [|r0 rd]; [congruence|]. cbn [length write_loop]. unfold bind. cbn [rs_owner rs_type rs_class rs_ttl rs_rdata].
  cbn [rdata_at nth_error Z.to_nat Z.ltb Z.compare lift s_dst].
  match goal with |- context[rdata_at ?a ?b] => destruct (rdata_at a b) as [x|e| |] eqn:ER end; cbn [lift]; auto. 2: { exfalso. unfold rdata_at in ER. destruct (_ <? 0); [discriminate|]. destruct (nth_error _ _); discriminate. }
  unfold write_rr, bind. rewrite (root_owner w d a h p l p' l' n Hn). reflexivity.
Qed.

(** ** The body with one RRset more *)
Lemma body_extend : forall w w' m size k info suf i rs hs s1 s2 sec, body w m size info suf -> differ w w' size (size + k) -> bytes w -> qend m <= size -> 0 <= k -> size + k <= zlen w ->
  recs_at WN w' size rs (size + k) -> Forall2 is_record (records_of [i]) rs -> Forall small rs ->
  (m_question m <> None -> hints_ok (allowed (x_owner (i_rrs i)) (x_data (i_rrs i))) (nonroot (x_owner (i_rrs i))) WN w' (size + k) hs /\ suffix_ok WN w' (size + k) (mkcompr [] s1 s2)) ->
  body w' (mkmsg (m_question m) sec (m_items m ++ [i]) false) (size + k) (info ++ [hs]) (s1, s2).
Proof.
  intros w w' m size k info suf i rs hs s1 s2 sec [(rs0 & HR & HS & HF) HQ] D HB Hq Hk Hz HR' HF' HS' HX. pose proof D as (DL & DB & DD). split.
  - exists (rs0 ++ rs). unfold qend in *. cbn [m_question m_items]. split; [eapply recs_app; [eapply recs_mono; [exact HR|exact D|lia]|exact HR']|]. split; [apply Forall_app; auto|]. rewrite records_of_app. apply Forall2_app; auto.
  - cbn [m_question m_items m_broken fst snd]. destruct (m_question m) as [[[q cl] t]|] eqn:EQ; [|auto]. destruct HQ as (HL & Hc & Ht & HH & HFl & HI & _). destruct (HX ltac:(congruence)) as [X1 X2]. pose proof (name_size_ge1 q).
    assert (HQE : qend m = 12 + name_size q + 4) by (unfold qend; rewrite EQ; auto). assert (K : keeps WN w w' size) by (eapply differ_keeps; [exact D|lia]).
    split; [auto|]. split; [auto|]. split; [auto|]. split. { intros j Hj. rewrite <- (HH j Hj). rewrite !zlen_app, !be_length, zlen_wire in Hj. apply DD. lia. }
    split; [eapply flat_mono'; [exact HFl|apply wider_refl|auto|exact K|lia|lia]|]. split; [|auto].
    apply Forall2_app; [|constructor; [exact X1|constructor]]. eapply Forall2_impl; [|exact HI]. cbn beta. intros j hs' Hh. eapply hints_mono'; [exact Hh|apply wider_refl|auto|exact K|lia|lia].
Qed.

Lemma later_empty : forall k c l, Forall (fun i => 0 <= i_section i <= c) l -> c < k -> in_section k l = [].
Proof. intros k c l H Hk. induction H as [|i l Hi _ IH]; [reflexivity|]. cbn [in_section filter]. replace (i_section i =? k) with false by lia. exact IH. Qed.
Lemma zlen_filter : forall A (f : A -> bool) l, zlen (filter f l) <= zlen l.
Proof. intros A f l. induction l as [|x l IH]; cbn [filter]; [lia|]. destruct (f x); rewrite ?zlen_cons; lia. Qed.

Lemma sections_put : forall p p' m x ptr rot f b, sections_ok p m -> zlen (m_items m) < 65535 -> p_current p' = p_current p ->
  p_sections p' = set_nth (Z.to_nat (p_current p)) (fst (section_of p (p_current p)), u16 (snd (section_of p (p_current p)) + 1)) (p_sections p) ->
  sections_ok p' (mkmsg (m_question m) (m_section m) (m_items m ++ [mkitem (m_section m) x ptr rot f]) b).
Proof.
  intros p p' m x ptr rot f b (Hcur & Hc2 & HL3 & HFa & HIS & HSec) HZ E1 E2. unfold sections_ok. cbn [m_section m_items]. rewrite E1, E2, set_nth_len. split; [auto|]. split; [auto|]. split; [auto|]. rewrite Hcur in *.
  split; [apply Forall_app; split; [auto|constructor; [cbn; lia|constructor]]|].
  assert (HI : forall k, in_section k (m_items m ++ [mkitem (m_section m) x ptr rot f]) = in_section k (m_items m) ++ (if m_section m =? k then [mkitem (m_section m) x ptr rot f] else [])).
  { intros k. rewrite in_section_app. f_equal. }
  split.
  - rewrite !HI. assert (HC : m_section m = 0 \/ m_section m = 1 \/ m_section m = 2) by lia. rewrite <- HIS at 4. destruct HC as [HC|[HC|HC]]; rewrite HC in *; cbn [Z.eqb Pos.eqb].
    + rewrite (later_empty 1 0 _ HFa), (later_empty 2 0 _ HFa) by lia. rewrite !app_nil_r. auto.
    + rewrite (later_empty 2 1 _ HFa) by lia. rewrite !app_nil_r. rewrite app_assoc. auto.
    + rewrite !app_nil_r. rewrite !app_assoc. auto.
  - intros k Hk. destruct (HSec k Hk) as [H1 H2]. unfold section_of in *. rewrite E2. rewrite HI. destruct (Z.eq_dec k (m_section m)) as [->|Hne].
    + rewrite set_nth_same by (rewrite HL3; lia). cbn [fst snd]. rewrite Z.eqb_refl. rewrite zlen_app. change (zlen [_]) with 1. rewrite H1. split.
      * unfold u16. apply Z.mod_small. pose proof (zlen_nonneg (in_section (m_section m) (m_items m))). pose proof (zlen_filter _ (fun i => i_section i =? m_section m) (m_items m)). unfold in_section. unfold in_section in *. lia.
      * intros _. rewrite H2 by auto. rewrite filter_app. cbn [filter i_section]. replace (m_section m <? m_section m) with false by lia. rewrite app_nil_r. reflexivity.
    + rewrite set_nth_other by lia. replace (m_section m =? k) with false by lia. rewrite app_nil_r. split; [auto|]. intros [H|H]; [|lia]. rewrite H2 by auto. rewrite filter_app. cbn [filter i_section].
      destruct (m_section m <? k) eqn:E; [|rewrite app_nil_r; auto]. rewrite (later_empty k (m_section m) _ HFa) in H by lia. cbn in H. lia.
Qed.

Lemma contains_same : forall p m t ptr, p_rr p = map (fun i => (x_type (i_rrs i), i_ptr i)) (m_items m) -> pkt_contains p t ptr = existsb (same_set t ptr) (m_items m).
Proof. intros p m t ptr H. unfold pkt_contains. rewrite H. clear H. induction (m_items m) as [|i l IH]; [reflexivity|]. cbn [map existsb]. rewrite IH. reflexivity. Qed.

(** the hints at the start of the call *)
Lemma start_hints : forall p m h x q cl t, Inv p m -> m_question m = Some (q, cl, t) -> hint_allowed p m h (x_owner x) ->
  hints_ok (allowed (x_owner x) (x_data x)) (nonroot (x_owner x)) WN (p_wire p) (p_size p) (h :: repeat 0 15).
Proof.
  intros p m h x q cl t HI HQ HA. destruct HI as (_ & _ & _ & _ & _ & _ & _ & _ & _ & (_ & HB) & _). rewrite HQ in HB. destruct HB as (_ & _ & _ & _ & HFl & HHs & _). split; [reflexivity|].
  intros id h' Hid Hg. destruct (Z.eq_dec id 0) as [->|Hne].
  - cbn in Hg. inversion Hg; subst h'. specialize (Hid eq_refl). apply nonroot_iff in Hid. destruct HA as [->|[HA|[HA|[(-> & q' & cl' & t' & HQ' & HA)|(k & i & hints & id & H1 & H2 & H3 & HA)]]]]; [left; auto|congruence|congruence| |].
    + right. exists q. split; [apply HFl|]. left. split; [auto|]. congruence.
    + assert (HX : hints_ok (allowed (x_owner (i_rrs i)) (x_data (i_rrs i))) (nonroot (x_owner (i_rrs i))) WN (p_wire p) (p_size p) hints).
      { clear - HHs H1 H2. revert k H1 H2. induction HHs as [|a b l l' Hab _ IH]; intros [|k] H1 H2; cbn in H1, H2; try discriminate; [|eapply IH; eauto]. inversion H1; inversion H2; subst; auto. }
      destruct HX as [_ HX]. destruct (HX id h) as [HX0|(ls & HR & HAl)]; [|auto|left; auto|].
      * intros ->. destruct HA as [[_ HA]|[HA _]]; [|lia]. apply nonroot_iff. intros E. rewrite E in HA. destruct (x_owner x); [congruence|discriminate].
      * right. exists ls. split; [auto|]. left. split; [auto|]. destruct HAl as [[E HAl]|[E (ps & l & N1 & N2 & HAl)]]; destruct HA as [[E' HA]|[E' HA]]; try lia; [congruence|]. rewrite HAl. eauto.
  - left. unfold zget in Hg. destruct (id <? 0) eqn:E; [discriminate|]. destruct (Z.to_nat id) as [|n] eqn:En; [lia|]. cbn [nth_error] in Hg. apply nth_error_In in Hg. apply repeat_spec in Hg. auto.
Qed.

(** The suffix is initialised *)
Lemma init_suffix : forall p m, Inv p m -> exists p2,
  (if negb (p_qname_size p =? 0) && (fst (p_suffix p) =? 0) then let* n := wire_labels (p_wire p) 12 in Ok (with_suffix p (12, u8 n)) else Ok p) = Ok p2 /\ Inv p2 m /\ (p2 = p \/ exists s, p2 = with_suffix p s) /\
  (forall q cl t, m_question m = Some (q, cl, t) -> wire_labels (p_wire p) 12 = Ok (zlen q) /\ suffix_ok WN (p_wire p) (p_size p) (mkcompr [] 12 (zlen q)) /\
     (m_broken m = true \/ suffix_ok WN (p_wire p) (p_size p) (mkcompr [] (fst (p_suffix p2)) (snd (p_suffix p2))))).
Proof.
  intros p m HI. pose proof HI as (HB & H64 & Hs12 & Hr & Hm & Hw & HQs & HRR & HH & HBd & HSec & HD & HX & HLi). pose proof HBd as [HB1 HB2]. destruct (m_question m) as [[[q cl] t]|] eqn:EQ.
  2: { rewrite HQs. exists p. split; [reflexivity|]. split; [exact HI|]. split; [auto|]. intros; congruence. }
  destruct HB2 as (HL & Hc & Ht & HHo & HFl & HHs & HSf). pose proof (name_size_ge1 q). pose proof (lim_le (p_size p)).
  assert (HLb : wire_labels (p_wire p) 12 = Ok (zlen q)). { destruct HFl as ([n HE] & HP & HSz). eapply labels_spec; [exact HB| |exact HSz|exact HE|exact HP]. unfold lim, PTR_MAX in *. lia. }
  assert (HS12 : suffix_ok WN (p_wire p) (p_size p) (mkcompr [] 12 (zlen q))) by (exists q; split; [exact HFl|reflexivity]).
  assert (HZ : 0 <= zlen q <= 127) by (split; [apply zlen_nonneg|apply size_labels; [apply HL|apply HL]]). assert (U : u8 (zlen q) = zlen q) by (unfold u8; apply Z.mod_small; lia).
  rewrite HQs. replace (name_size q =? 0) with false by lia. cbn [negb andb]. destruct (fst (p_suffix p) =? 0) eqn:E.
  - rewrite HLb. cbn [rbind]. rewrite U. eexists. split; [reflexivity|]. split; [|split; [right; eexists; reflexivity|]].
    + unfold Inv. cbn [with_suffix p_wire p_size p_max p_reserved p_qname_size p_rr p_info p_suffix]. rewrite EQ. do 9 (split; [assumption|]). split; [|split; [exact HSec|split; [assumption|split; [discriminate|assumption]]]].
      split; [exact HB1|]. rewrite EQ. do 6 (split; [assumption|]). right; right. exact HS12.
    + intros q' cl' t' E'. inversion E'; subst. split; [auto|]. split; [auto|]. right. exact HS12.
  - exists p. split; [reflexivity|]. split; [exact HI|]. split; [auto|]. intros q' cl' t' E'. inversion E'; subst. split; [auto|]. split; [auto|]. destruct HSf as [HSf|[HSf|HSf]]; [auto|lia|auto].
Qed.

Lemma alloc_inv : forall p m n a1 a2 ret p1, Inv p m -> pkt_rr_array_alloc p n a1 a2 = (ret, p1) -> Inv p1 m /\ (p1 = p \/ exists k, p1 = with_allocd p k) /\ (ret = KNOT_EOK \/ ret = KNOT_ENOMEM /\ p1 = p) /\ (a1 = true -> a2 = true -> ret = KNOT_EOK).
Proof.
  intros p m n a1 a2 ret p1 HI E. unfold pkt_rr_array_alloc in E. destruct (_ >=? _); [inversion E; subst; auto|]. destruct a1, a2; cbn [andb negb] in E; inversion E; subst; cbn beta; split; auto; repeat split; auto; try discriminate; right; eauto.
Qed.

Definition same_but (p p' : pkt) : Prop :=
  p_size p' = p_size p /\ p_max p' = p_max p /\ p_reserved p' = p_reserved p /\ p_qname_size p' = p_qname_size p /\ p_rr p' = p_rr p /\ p_info p' = p_info p /\ p_current p' = p_current p /\ p_sections p' = p_sections p.

Definition put_rr (x : rrs) : rrset := mkrrset (dwire (x_owner x)) (x_type x) (x_class x) (x_ttl x) (map flat (x_data x)).
(** what a call that puts an RRset does *)
Definition put_result (p : pkt) (m : msg) (al1 al2 : bool) (x : rrs) (ptr rot : Z) (f : pflags) (ret : Z) (p' : pkt) : Prop :=
  p_max p' = p_max p /\ p_reserved p' = p_reserved p /\
  ((ret = KNOT_EOK /\ p_size p <= p_size p' <= p_size p + records_size (x_owner x) (in_order rot (x_data x)) /\ (forall i, 12 <= i < p_size p -> zget (p_wire p') i = zget (p_wire p) i)) \/
   (ret = KNOT_ENOMEM /\ al1 && al2 = false /\ p' = p) \/
   (ret = KNOT_ESPACE /\ same_but p p' /\ p_max p - p_reserved p - p_size p < records_size (x_owner x) (in_order rot (x_data x)) /\
     zlen (p_wire p') = zlen (p_wire p) /\ (forall i, i <> 2 -> (i < p_size p \/ p_max p - p_reserved p <= i) -> zget (p_wire p') i = zget (p_wire p) i) /\
     exists b, zget (p_wire p) 2 = Some b /\ zget (p_wire p') 2 = Some (if f_notrunc f then b else Z.lor b 2))).

Lemma put_inv : forall p m al1 al2 h x ptr rot f, Inv p m -> allowed_call p m (CPut al1 al2 h x ptr rot f) ->
  exists ret p', pkt_put_rotate p al1 al2 h (put_rr x) ptr rot f = Ok (ret, p') /\ Inv p' (effect (CPut al1 al2 h x ptr rot f) ret m) /\ put_result p m al1 al2 x ptr rot f ret p'.
Proof.
  intros p0 m al1 al2 h x ptr rot f HI0 ((HL & Ht & Hc & Httl & HZd & HOK) & Hrot & Hh & HA & HBr).
  unfold pkt_put_rotate. destruct (pkt_rr_array_alloc p0 _ al1 al2) as [ret p] eqn:EA. destruct (alloc_inv _ _ _ _ _ _ _ HI0 EA) as (HI & HP & HRet & HAl).
  assert (HR0 : 0 <= records_size (x_owner x) (in_order rot (x_data x))) by (apply size_nonneg).
  assert (HF0 : p_wire p = p_wire p0 /\ p_size p = p_size p0 /\ p_max p = p_max p0 /\ p_reserved p = p_reserved p0 /\ p_info p = p_info p0 /\ same_but p0 p). { destruct HP as [->|[k ->]]; unfold same_but; cbn; repeat split; auto. }
  destruct HF0 as (FW & FS & FM & FR & FI & FB).
  destruct HRet as [->|[-> ->]].
  2: { change (negb (KNOT_ENOMEM =? KNOT_EOK)) with true. cbn iota. eexists. eexists. split; [reflexivity|]. cbn [effect]. change (KNOT_ENOMEM =? KNOT_EOK) with false. change (KNOT_ENOMEM =? KNOT_ENOMEM) with true. cbn iota. split; [auto|]. split; [auto|]. split; [auto|]. right; left. split; [auto|]. split; [|auto]. destruct al1, al2; auto. specialize (HAl eq_refl eq_refl). discriminate. }
  change (negb (KNOT_EOK =? KNOT_EOK)) with false. cbn iota. cbn [effect]. cbn [put_rr rs_type].
  pose proof HI as (HB & H64 & Hs12 & Hr & Hm & Hw & HQs & HRR & HH & HBd & HSec & HD & HX & HLi). rewrite (contains_same p m) by auto.
  destruct (f_checkdup f && existsb (same_set (x_type x) ptr) (m_items m)) eqn:EDup.
  { eexists. eexists. split; [reflexivity|]. change (KNOT_EOK =? KNOT_EOK) with true. cbn iota. cbn [orb]. split; [auto|]. split; [auto|]. split; [auto|]. left. split; [auto|]. split; [lia|]. rewrite FW. auto. }
  destruct (init_suffix p m HI) as (p2 & -> & HI2 & HP2 & HQ2). cbn [rbind].
  assert (HF2 : p_wire p2 = p_wire p0 /\ p_size p2 = p_size p0 /\ p_max p2 = p_max p0 /\ p_reserved p2 = p_reserved p0 /\ p_info p2 = p_info p0 /\ same_but p0 p2). { unfold same_but in *. destruct HP2 as [->|[k ->]]; cbn [with_suffix p_wire p_size p_max p_reserved p_info p_qname_size p_rr p_current p_sections]; tauto. }
  clear HB H64 Hs12 Hr Hm Hw HQs HRR HH HBd HSec HD HX HLi. rewrite FW, FS in HQ2. clear FW FS FM FR FI FB HP EA HAl HI. destruct HF2 as (FW & FS & FM & FR & FI & FB). clear p HP2.
  pose proof HI2 as (HB & H64 & Hs12 & Hr & Hm & Hw & HQs & HRR & HH & HBd & HSec & HD & HX & HLi). rewrite <- FW, <- FS in HQ2. pose proof (qend_size _ _ HI2) as HQe. destruct (remaining_ok _ _ HI2) as [Rem Rem0].
  set (hints := h :: repeat 0 15). set (compr := if negb (p_qname_size p2 =? 0) then Some (mkcompr hints (fst (p_suffix p2)) (snd (p_suffix p2))) else None).
  (* a good state, with the same result *)
  assert (HG : exists compr', good (allowed (x_owner x) (x_data x)) (nonroot (x_owner x)) WN (mkst (p_wire p2) (p_size p2) (pkt_remaining p2) compr') /\ (m_question m = None <-> compr' = None) /\
    (compr = None <-> compr' = None) /\ (x_data x <> [] -> to_wire_extra (put_rr x) rot (f_origttl f) (f_soaminttl f) (mkst (p_wire p2) (p_size p2) (pkt_remaining p2) compr) = to_wire_extra (put_rr x) rot (f_origttl f) (f_soaminttl f) (mkst (p_wire p2) (p_size p2) (pkt_remaining p2) compr'))).
  { assert (HSz : sized WN (mkst (p_wire p2) (p_size p2) (pkt_remaining p2) compr)). { split; [exact HB|]. cbn [s_mem s_dst s_avail]. split; [unfold free; cbn [WN w_lo w_hole]; lia|lia]. }
    destruct (m_question m) as [[[q cl] t]|] eqn:EQ.
    2: { exists compr. unfold compr in *. rewrite HQs in *. cbn [Z.eqb negb] in *. split; [split; [exact HSz|exact I]|]. split; [tauto|]. split; [tauto|auto]. }
    destruct (HQ2 q cl t eq_refl) as (HLb & HS12 & HSf). pose proof (name_size_ge1 q). assert (EC : compr = Some (mkcompr hints (fst (p_suffix p2)) (snd (p_suffix p2)))) by (unfold compr; rewrite HQs; replace (name_size q =? 0) with false by lia; auto).
    assert (HHi : hints_ok (allowed (x_owner x) (x_data x)) (nonroot (x_owner x)) WN (p_wire p2) (p_size p2) hints). { eapply start_hints; [exact HI2|exact EQ|]. unfold hint_allowed in *. rewrite FI. exact HA. }
    assert (HFl : exists qs, flat_at WN (p_wire p2) (p_size p2) 12 qs). { destruct HBd as [_ HBd]. rewrite EQ in HBd. exists q. apply HBd. }
    destruct HSf as [HSf|HSf].
    - destruct (HBr HSf) as [HO|HO]; [|congruence]. exists (Some (mkcompr hints 12 (zlen q))). split; [split; [exact HSz|]|split; [split; discriminate|split; [rewrite EC; split; discriminate|]]].
      + cbn [ctx s_compr s_mem s_dst c_hints]. split; [exact HS12|]. split; [exact HFl|exact HHi].
      + intros Hd. rewrite EC. unfold put_rr. rewrite HO. eapply root_to_wire; [|exact HLb]. destruct (x_data x); [congruence|discriminate].
    - exists compr. split; [split; [exact HSz|]|split; [rewrite EC; split; discriminate|split; [tauto|auto]]]. rewrite EC. cbn [ctx s_compr s_mem s_dst c_hints]. split; [exact HSf|]. split; [exact HFl|exact HHi]. }
  destruct HG as (compr' & HG & HC1 & HC2 & HEq).
  assert (HZm : zlen (rs_rdata (put_rr x)) = zlen (x_data x)) by (cbn [put_rr rs_rdata]; unfold zlen; rewrite map_length; auto).
  destruct (zlen (x_data x) =? 0) eqn:E0.
  { assert (Hnil : x_data x = []) by (apply zlen_0_nil; lia). clear HEq. unfold put_rr at 1. rewrite Hnil. cbn [map]. change (to_wire_extra (mkrrset (dwire (x_owner x)) (x_type x) (x_class x) (x_ttl x) []) rot (f_origttl f) (f_soaminttl f) ?s) with (Done 0 s). cbn iota.
    rewrite HZm. replace (zlen (x_data x)) with 0 by lia. change (u16 0 >? 0) with false. cbn iota. cbn [s_mem s_compr]. eexists. eexists. split; [reflexivity|]. change (KNOT_EOK =? KNOT_EOK) with true. cbn iota. cbn [orb].
    replace (match compr with Some c => (c_pos c, c_labels c) | None => p_suffix p2 end) with (p_suffix p2) by (unfold compr; destruct (negb _); [destruct (p_suffix p2)|]; reflexivity).
    replace (with_suffix (with_wire p2 (p_wire p2)) (p_suffix p2)) with p2 by (destruct p2; reflexivity). split; [exact HI2|]. split; [auto|]. split; [auto|]. left. split; [auto|]. split; [lia|]. rewrite FW. auto. }
  assert (Hnn : x_data x <> []) by (intros E; rewrite E in E0; cbn in E0; discriminate). specialize (HEq Hnn). rewrite HEq. clear HEq.
  pose proof (to_wire_spec 12 (x_owner x) (x_type x) (x_class x) (x_ttl x) (x_data x) rot (f_origttl f) (f_soaminttl f) _ HL HOK Ht Hc Httl ltac:(lia) HG) as TW.
  pose proof (pres_to_wire (put_rr x) rot (f_origttl f) (f_soaminttl f) (mkst (p_wire p2) (p_size p2) (pkt_remaining p2) compr')) as PW. cbn [s_compr] in PW.
  change (mkrrset (dwire (x_owner x)) (x_type x) (x_class x) (x_ttl x) (map flat (x_data x))) with (put_rr x) in TW. fold (in_order rot (x_data x)) in TW. change (rotated rot (x_data x)) with (in_order rot (x_data x)) in TW.
  destruct (to_wire_extra (put_rr x) rot (f_origttl f) (f_soaminttl f) _) as [k s|e s| |]; [| |destruct TW|destruct TW]; cbn [s_mem s_dst s_avail s_compr] in *.
  - (* written *)
    destruct TW as (rs & (D & Sd & Sa & Hk & Sc) & Hks & HG' & HRs & HFs & HSm & _). pose proof D as (DL & DB & DD).
    cbn [s_mem s_dst s_avail s_compr] in *. change (mkwin 12 (-2)) with WN in *.
    set (hs := match s_compr s with Some c => c_hints c | None => hints end). set (suf := match s_compr s with Some c => (c_pos c, c_labels c) | None => p_suffix p2 end).
    set (it := mkitem (m_section m) x ptr rot f).
    assert (HRec : Forall2 is_record (records_of [it]) rs). { unfold records_of. cbn [map concat it i_rotate i_rrs]. rewrite app_nil_r. clear - HFs. induction HFs; cbn [map]; constructor; auto. }
    assert (HBody : body (s_mem s) (mkmsg (m_question m) (m_section m) (m_items m ++ [it]) false) (p_size p2 + k) (p_info p2 ++ [hs]) suf).
    { rewrite (surjective_pairing suf). eapply body_extend with (w := p_wire p2) (rs := rs) (suf := p_suffix p2); [exact HBd|exact D|exact HB|exact HQe|lia|lia|exact HRs|exact HRec|exact HSm|].
      intros Hq. destruct HG' as [_ HG']. rewrite Sd in HG'. unfold hs, suf. destruct (s_compr s) as [c|] eqn:ES; [|exfalso; apply Hq; apply HC1; apply Sc; auto]. cbn [ctx] in HG'. destruct HG' as (G1 & _ & G2). split; [exact G2|exact G1]. }
    assert (HCnt : qend m + 11 * zlen (records_of (m_items m ++ [it])) <= p_size p2 + k). { destruct HBody as [(rs' & HR' & _ & HF') _]. apply recs_count in HR'. cbn [m_items] in HF'. rewrite (Forall2_zlen _ _ _ _ _ HF'). exact HR'. }
    assert (HQ12 : 12 <= qend m) by (unfold qend; destruct (m_question m) as [[[q ?] ?]|]; [pose proof (name_size_ge1 q)|]; lia).
    rewrite records_of_app, zlen_app, records_of_one in HCnt. cbn [it i_rrs] in HCnt.
    destruct HSec as (Hcur & Hsr & HSec'). destruct HH as [HH4 HHk]. pose proof (zlen_nonneg (x_data x)). pose proof (records_section_le (m_section m) (m_items m)) as HSL. pose proof (zlen_nonneg (records_of (in_section (m_section m) (m_items m)))). pose proof (items_le _ HD).
    rewrite HZm. assert (U1 : u16 (zlen (x_data x)) = zlen (x_data x)) by (unfold u16; apply Z.mod_small; lia). rewrite U1. replace (zlen (x_data x) >? 0) with true by lia.
    rewrite (surjective_pairing (section_of _ _)). cbn [with_suffix with_wire with_rrs with_section with_size p_wire p_size p_max p_reserved p_qname_size p_rr p_info p_allocd p_current p_sections p_suffix].
    unfold pkt_rr_wirecount_add, count_offset. rewrite Hcur. rewrite (get16_ok (s_mem s) (6 + 2 * m_section m) (zlen (records_of (in_section (m_section m) (m_items m))))); [|apply DB; auto|eapply differ_u16; [exact D|apply HHk; lia|lia]]. cbn [rbind].
    destruct (set16_ok (s_mem s) (6 + 2 * m_section m) (zlen (records_of (in_section (m_section m) (m_items m))) + zlen (x_data x)) (DB HB) ltac:(lia) ltac:(lia) ltac:(lia)) as (w & -> & Dw & Uw). cbn [rbind]. pose proof Dw as (DwL & DwB & DwD).
    eexists. eexists. split; [reflexivity|]. change (KNOT_EOK =? KNOT_EOK) with true. cbn iota. cbn [orb]. fold it. split.
    + unfold Inv. cbn [with_suffix with_wire with_rrs with_section with_size p_wire p_size p_max p_reserved p_qname_size p_rr p_info p_allocd p_current p_sections p_suffix m_question m_items m_section].
      split; [apply DwB, DB; auto|]. split; [lia|]. split; [lia|]. split; [lia|]. split; [lia|]. split; [lia|]. split; [exact HQs|]. split; [rewrite HRR, map_app; reflexivity|].
      assert (HNe : forall k', 0 <= k' <= 2 -> k' <> m_section m -> in_section k' (m_items m ++ [it]) = in_section k' (m_items m)). { intros k' _ Hne. rewrite in_section_app. cbn [in_section filter it i_section]. replace (m_section m =? k') with false by lia. apply app_nil_r. }
      split; [|split; [|split; [|split; [|split]]]].
      * unfold head. cbn [m_question m_items]. split; [eapply differ_u16; [exact Dw| |lia]; eapply differ_u16; [exact D|exact HH4|lia]|]. intros k' Hk'. destruct (Z.eq_dec k' (m_section m)) as [->|Hne].
        -- rewrite in_section_app. cbn [in_section filter it i_section]. rewrite Z.eqb_refl. rewrite records_of_app, zlen_app, records_of_one. cbn [i_rrs]. exact Uw.
        -- rewrite HNe by auto. eapply differ_u16; [exact Dw| |lia]. eapply differ_u16; [exact D|apply HHk; auto|lia].
      * eapply body_keep; [exact HBody|eapply differ_head_keeps; [exact Dw|lia]|apply DB; auto|unfold qend in *; cbn [m_question]; lia].
      * unfold it. eapply (sections_put p2); [split; [exact Hcur|split; [exact Hsr|exact HSec']]|lia|cbn; auto|]. cbn [with_suffix with_wire with_rrs with_section with_size p_sections section_of]. rewrite Hcur. reflexivity.
      * apply Forall_app. split; [exact HD|]. constructor; [|constructor]. cbn [it i_rrs]. lia.
      * intros HQN. unfold suf. destruct (s_compr s) eqn:ES; [|auto]. exfalso. assert (EN : compr' = None) by (apply HC1; auto). apply (proj1 Sc) in EN. congruence.
      * rewrite !app_length. cbn [length]. lia.
    + split; [exact FM|]. split; [exact FR|]. left. split; [auto|]. cbn [with_suffix with_wire with_rrs with_section with_size p_wire p_size]. split; [lia|]. intros i Hi. rewrite DwD by lia. rewrite DD by lia. rewrite FW. auto.
  - (* no space *)
    destruct TW as (-> & Hav & D). unfold failed in D. cbn [s_mem s_dst s_avail] in *. pose proof D as (DL & DB & DD). change (KNOT_ESPACE =? KNOT_ESPACE) with true. cbn [andb].
    assert (HW : exists w b, (if negb (f_notrunc f) then set_bit (s_mem s) 2 2 else Ok (s_mem s)) = Ok w /\ differ (s_mem s) w 2 3 /\ zget (p_wire p2) 2 = Some b /\ zget w 2 = Some (if f_notrunc f then b else Z.lor b 2)).
    { destruct (set_bit_ok (s_mem s) 2 2 (DB HB) ltac:(lia) ltac:(unfold byte; lia)) as (w & b & E1 & E2 & E3 & E4). rewrite DD in E3 by lia. destruct (f_notrunc f); cbn [negb]; [exists (s_mem s), b|exists w, b]; (split; [auto|split; [|auto]]). - apply differ_refl. - split; [exact E3|]. rewrite DD by lia. auto. - exact E2. }
    destruct HW as (w & b & -> & Dw & B1 & B2). cbn [rbind]. pose proof Dw as (DwL & DwB & DwD). eexists. eexists. split; [reflexivity|]. change (KNOT_ESPACE =? KNOT_EOK) with false. change (KNOT_ESPACE =? KNOT_ENOMEM) with false. cbn iota. split.
    + unfold Inv. cbn [with_suffix with_wire p_wire p_size p_max p_reserved p_qname_size p_rr p_info p_suffix m_question m_items]. split; [auto|]. split; [lia|]. do 3 (split; [assumption|]). split; [lia|]. do 2 (split; [assumption|]). split; [|split; [|split; [exact HSec|split; [exact HD|split; [|exact HLi]]]]].
      * destruct HH as [HH4 HHk]. split; [eapply differ_u16; [exact Dw| |lia]; eapply differ_u16; [exact D|exact HH4|lia]|]. intros k' Hk'. eapply differ_u16; [exact Dw| |lia]. eapply differ_u16; [exact D|apply HHk; auto|lia].
      * eapply body_keep with (w := s_mem s); [|eapply differ_head_keeps; [exact Dw|lia]|auto|unfold qend in *; cbn [m_question]; lia].
        assert (HB' : body (s_mem s) m (p_size p2) (p_info p2) (p_suffix p2)) by (eapply body_keep; [exact HBd|eapply differ_keeps; [exact D|lia]|auto|lia]). destruct HB' as [HB1 HB2]. split; [exact HB1|]. cbn [m_question m_items m_broken]. destruct (m_question m) as [[[q cl] t]|]; [|auto].
        destruct HB2 as (G1 & G2 & G3 & G4 & G5 & G6 & _). do 6 (split; [assumption|]). auto.
      * intros HQN. rewrite PW by (apply HC1; auto). auto.
    + split; [exact FM|]. split; [exact FR|]. right; right. split; [auto|]. split; [exact FB|]. split; [lia|]. cbn [with_suffix with_wire p_wire]. split; [rewrite <- FW; lia|]. split; [|exists b; rewrite <- FW; auto].
      intros i Hi2 Hi. rewrite DwD by lia. rewrite DD by lia. rewrite FW. auto.
Qed.
