(** C36: persistent zone timers. *)
From Verif Require Import Base WireModel WireProofs WireProps DnameModel DnameSpec DnameProofs DnameProofs2 LmdbModel LmdbProofs LmdbProofs2 LmdbProps TimersModel.
From Coq Require Import Sorting.Sorted.

(** values a timers structure can hold *)
Definition time_ok (v : Z) : Prop := - 2 ^ 63 <= v < 2 ^ 63.
Definition timers_ok (t : timers) : Prop :=
  0 <= tm_soa_expire t < 2 ^ 32 /\ time_ok (tm_last_flush t) /\ time_ok (tm_last_refresh t) /\ time_ok (tm_next_refresh t) /\ 0 <= tm_last_notified t < 2 ^ 64 /\
  time_ok (tm_next_ds_check t) /\ time_ok (tm_next_ds_push t) /\ time_ok (tm_catalog_member t) /\ time_ok (tm_next_expire t) /\
  bytes (tm_last_master t) /\ zlen (tm_last_master t) = 28 /\ time_ok (tm_master_pin_hit t).

(** ** The stored format: records of an identifier and eight bytes, or the master's identifier and 28 bytes *)
Inductive item : Type := Num (id v : Z) | Master (m : list Z).
Definition item_ok (i : item) : Prop :=
  match i with Num id v => 0 <= id < 256 /\ id <> 139 /\ 0 <= v < 2 ^ 64 | Master m => bytes m /\ zlen m = 28 end.
Definition item_bytes (i : item) : list Z := match i with Num id v => be 1 id ++ be 8 v | Master m => be 1 139 ++ m end.
Definition apply_item (t : timers) (i : item) : timers := match i with Num id v => set_timer t id v | Master m => set_master t m end.
Definition stored (l : list item) : list Z := concat (map item_bytes l).

Lemma read_int_at : forall (n : nat) w pre v post, 0 <= v < 256 ^ Z.of_nat n -> at_ w pre (be n v ++ post) ->
  exists w', wire_read w (Z.of_nat n) = Ok (be n v, w') /\ at_ w' (pre ++ be n v) post /\ unbe (be n v) = v.
Proof.
  intros n w pre v post Hv HA. destruct (c48_read _ _ _ _ HA) as (w' & E & A). rewrite be_length in E. exists w'. split; auto. split; auto. rewrite unbe_be, Z.mod_small; auto.
Qed.
Lemma avail_at : forall w pre post, at_ w pre post -> wire_available w = zlen post.
Proof. intros w pre post H. pose proof (at_wf _ _ _ H) as [W S]. destruct H as (_ & H2 & _). rewrite wf_avail, S, H2 by auto. lia. Qed.
Lemma item_len : forall i, item_ok i -> zlen (item_bytes i) = match i with Num _ _ => 9 | Master _ => 29 end.
Proof. intros [id v|m] H; cbn [item_bytes item_ok] in *; rewrite zlen_app, ?be_length; lia. Qed.
Lemma deser_item : forall i w pre post fuel t, item_ok i -> at_ w pre (item_bytes i ++ post) ->
  exists w', deser_loop (S fuel) w t = deser_loop fuel w' (apply_item t i) /\ at_ w' (pre ++ item_bytes i) post.
Proof.
  intros i w pre post fuel t Hi HA. cbn [deser_loop]. rewrite (avail_at _ _ _ HA), zlen_app, item_len by auto. pose proof (zlen_nonneg post).
  replace (_ >=? TIMER_SIZE) with true by (unfold TIMER_SIZE; destruct i; lia). unfold wire_read_u8.
  destruct i as [id v|m]; cbn [item_bytes item_ok] in *; rewrite <- app_assoc in HA.
  - destruct (read_int_at 1 w pre id (be 8 v ++ post)) as (w1 & E & A & U); auto; [change (256 ^ Z.of_nat 1) with 256; lia|]. change 1 with (Z.of_nat 1) at 1. rewrite E. cbn [rbind]. rewrite U.
    replace (id =? TIMER_LAST_MASTER) with false by (unfold TIMER_LAST_MASTER; lia). unfold wire_read_u64.
    destruct (read_int_at 8 w1 (pre ++ be 1 id) v post) as (w2 & E2 & A2 & U2); auto; [change (256 ^ Z.of_nat 8) with (2 ^ 64); lia|]. change 8 with (Z.of_nat 8) at 1. rewrite E2. cbn [rbind]. rewrite U2.
    exists w2. split; auto. rewrite <- app_assoc in A2. auto.
  - destruct (read_int_at 1 w pre 139 (m ++ post)) as (w1 & E & A & U); auto; [change (256 ^ Z.of_nat 1) with 256; lia|]. change 1 with (Z.of_nat 1) at 1. rewrite E. cbn [rbind]. rewrite U.
    change (139 =? TIMER_LAST_MASTER) with true. cbn iota. destruct (c48_read _ _ _ _ A) as (w2 & E2 & A2). destruct Hi as [_ Hl]. rewrite Hl in E2. unfold MASTER_SIZE. rewrite E2. cbn [rbind].
    exists w2. split; auto. rewrite <- app_assoc in A2. auto.
Qed.
Lemma deser_items : forall l w pre post fuel t, Forall item_ok l -> at_ w pre (stored l ++ post) ->
  exists w', deser_loop (length l + fuel) w t = deser_loop fuel w' (fold_left apply_item l t) /\ at_ w' (pre ++ stored l) post.
Proof.
  induction l as [|i l IH]; intros w pre post fuel t H HA; unfold stored in *; cbn [map concat length fold_left] in *.
  - exists w. rewrite app_nil_r. auto.
  - inversion H; subst. rewrite <- app_assoc in HA. destruct (deser_item i w pre _ (length l + fuel) t H2 HA) as (w1 & E1 & A1). destruct (IH w1 _ post fuel (apply_item t i) H3 A1) as (w2 & E2 & A2).
    exists w2. cbn [Nat.add]. rewrite E1, E2. split; auto. rewrite <- app_assoc in A2. auto.
Qed.
Lemma deser_end : forall w pre post fuel t, at_ w pre post -> zlen post < 9 -> deser_loop (S fuel) w t = Ok (t, w).
Proof. intros w pre post fuel t HA Hp. cbn [deser_loop]. rewrite (avail_at _ _ _ HA). replace (zlen post >=? TIMER_SIZE) with false by (unfold TIMER_SIZE; lia). reflexivity. Qed.
Lemma at_const : forall d, zlen d < 2 ^ 63 -> at_ (wire_init_const d) [] d.
Proof. intros d H. unfold at_. cbn [wire_init_const w_buf w_pos w_err app]. auto. Qed.
Lemma stored_len : forall l, Forall item_ok l -> (length l <= length (stored l))%nat.
Proof.
  induction l as [|i l IH]; intros H; unfold stored in *; cbn [map concat length]; [lia|]. inversion H; subst. rewrite app_length. specialize (IH H3). pose proof (item_len i H2). unfold zlen in H0. destruct i; lia.
Qed.
(** A sequence of records is read record by record; unknown identifiers change nothing (see [c36_unknown]). *)
Lemma deserialize_stored : forall l fuel, Forall item_ok l -> zlen (stored l) < 2 ^ 63 -> (length l < fuel)%nat -> deserialize_timers fuel (Some (stored l)) = Ok (fold_left apply_item l timers0).
Proof.
  intros l fuel H HL Hf. unfold deserialize_timers. pose proof (at_const _ HL) as A0. rewrite <- (app_nil_r (stored l)) in A0 at 2. replace fuel with (length l + S (fuel - length l - 1))%nat by lia.
  destruct (deser_items l _ [] [] (S (fuel - length l - 1)) timers0 H A0) as (w & -> & A). rewrite (deser_end _ _ _ _ _ A) by (rewrite zlen_nil; lia). cbn [rbind]. rewrite (avail_at _ _ _ A). change (zlen (@nil Z)) with 0.
  change (0 =? 0) with true. cbn [negb]. destruct A as (_ & _ & -> & _). reflexivity.
Qed.

(** ** Reading any stored bytes. [short_master d]: after complete records comes the master's identifier with
    at least nine but fewer than 28 bytes behind it. *)
Definition short_master (d : list Z) : Prop := exists l m, Forall item_ok l /\ d = stored l ++ 139 :: m /\ 9 <= zlen m < 28.
Lemma split_bytes : forall d, bytes d -> zlen d < 2 ^ 63 -> exists l rest, Forall item_ok l /\ d = stored l ++ rest /\ (zlen rest < 9 \/ (exists m, rest = 139 :: m /\ 8 <= zlen m < 28)).
Proof.
  intros d. remember (length d) as n eqn:En. revert d En. induction n as [n IH] using lt_wf_ind. intros d En HB HL.
  destruct (zlen d <? 9) eqn:E9; [exists [], d; repeat split; auto; left; lia|].
  destruct d as [|id d]; [rewrite zlen_nil in E9; lia|]. rewrite zlen_cons in *. apply bytes_cons in HB. destruct HB as [HI HB].
  destruct (Z.eq_dec id 139) as [->|Hi].
  - destruct (zlen d <? 28) eqn:E28.
    + exists [], (139 :: d). split; auto. split; auto. right. exists d. split; auto. lia.
    + destruct (IH (length (zskipn 28 d))) with (d := zskipn 28 d) as (l & rest & A & B & C); auto.
      * unfold zskipn. rewrite skipn_length. unfold zlen in *. cbn [length] in En. lia.
      * rewrite <- (zfirstn_skipn _ d 28) in HB. apply bytes_app in HB. tauto.
      * rewrite zlen_zskipn; lia.
      * exists (Master (zfirstn 28 d) :: l), rest. split; [constructor; auto; cbn [item_ok]; split; [rewrite <- (zfirstn_skipn _ d 28) in HB; apply bytes_app in HB; tauto|rewrite zlen_zfirstn; lia]|]. split; auto.
        unfold stored. cbn [map concat item_bytes]. change (be 1 139) with [139]. rewrite <- !app_assoc. cbn [app]. f_equal. unfold stored in B. rewrite <- B. symmetry. apply zfirstn_skipn.
  - destruct (IH (length (zskipn 8 d))) with (d := zskipn 8 d) as (l & rest & A & B & C); auto.
    + unfold zskipn. rewrite skipn_length. unfold zlen in *. cbn [length] in En. lia.
    + rewrite <- (zfirstn_skipn _ d 8) in HB. apply bytes_app in HB. tauto.
    + rewrite zlen_zskipn; lia.
    + assert (HB8 : bytes (zfirstn 8 d)) by (rewrite <- (zfirstn_skipn _ d 8) in HB; apply bytes_app in HB; tauto). assert (L8 : zlen (zfirstn 8 d) = 8) by (rewrite zlen_zfirstn; lia).
      exists (Num id (unbe (zfirstn 8 d)) :: l), rest. pose proof (unbe_bound _ HB8) as U. rewrite L8 in U. change (256 ^ 8) with (2 ^ 64) in U. split; [constructor; auto; cbn [item_ok]; unfold byte in HI; lia|]. split; auto.
      unfold stored. cbn [map concat item_bytes]. replace (be 1 id) with [id]. 2:{ cbn [be]. f_equal. change (256 ^ Z.of_nat 0) with 1. rewrite Z.div_1_r, Z.mod_small; unfold byte in HI; lia. }
      replace (be 8 (unbe (zfirstn 8 d))) with (zfirstn 8 d). 2:{ rewrite <- (be_unbe (zfirstn 8 d)) at 1 by auto. f_equal. unfold zlen in L8. lia. }
      rewrite <- !app_assoc. cbn [app]. f_equal. unfold stored in B. rewrite <- B. symmetry. apply zfirstn_skipn.
Qed.
Lemma read_any : forall d, bytes d -> zlen d < 2 ^ 63 -> ~ short_master d ->
  (exists t, deserialize_timers (S (length d)) (Some d) = Ok t) \/ deserialize_timers (S (length d)) (Some d) = Err KNOT_EMALF.
Proof.
  intros d HB HL HS. destruct (split_bytes d HB HL) as (l & rest & F & -> & C). pose proof (stored_len l F) as SL.
  assert (A0 : at_ (wire_init_const (stored l ++ rest)) [] (stored l ++ rest)) by (apply at_const; auto).
  assert (FU : S (length (stored l ++ rest)) = (length l + S (length (stored l) - length l + length rest))%nat) by (rewrite app_length; lia). unfold deserialize_timers. rewrite FU.
  destruct (deser_items l _ [] rest (S (length (stored l) - length l + length rest)) timers0 F A0) as (w & -> & A). cbn [app] in A.
  destruct C as [C|(m & -> & C)].
  - rewrite (deser_end _ _ _ _ _ A C). cbn [rbind]. rewrite (avail_at _ _ _ A). destruct (zlen rest =? 0) eqn:E; cbn [negb]; auto. destruct A as (_ & _ & -> & _). left. eexists. reflexivity.
  - assert (zlen m = 8). { assert (~ 9 <= zlen m < 28); [|lia]. intros Hm. apply HS. exists l, m. auto. }
    right. cbn [deser_loop]. rewrite (avail_at _ _ _ A), zlen_cons, H. change (1 + 8 >=? TIMER_SIZE) with true. unfold wire_read_u8.
    change (139 :: m) with ([139] ++ m) in A. destruct (c48_read _ _ _ _ A) as (w1 & E1 & A1). change (zlen [139]) with 1 in E1. rewrite E1. cbn [rbind]. change (unbe [139] =? TIMER_LAST_MASTER) with true. cbn iota.
    rewrite (c48_read_past_end _ _ _ MASTER_SIZE A1) by (unfold MASTER_SIZE; lia). cbn [rbind length]. replace (length (stored l) - length l + S (length m))%nat with (S (length (stored l) - length l + length m))%nat by lia.
    cbn [deser_loop]. replace (wire_available (set_err w1 KNOT_EFEWDATA)) with 8. 2:{ rewrite <- H, <- (avail_at _ _ _ A1). reflexivity. } change (8 >=? TIMER_SIZE) with false. cbn [rbind].
    replace (wire_available (set_err w1 KNOT_EFEWDATA)) with 8. 2:{ rewrite <- H, <- (avail_at _ _ _ A1). reflexivity. } reflexivity.
Qed.
(** Any stored value other than one cut inside a master's address is read record by record, or refused as
    malformed if it is not a sequence of complete records; what is missing from the full claim is
    [short_master], where reading never ends. *)
Theorem c36_read_any_partial : forall d, bytes d -> zlen d < 2 ^ 63 -> ~ short_master d ->
  (exists l, Forall item_ok l /\ d = stored l /\ deserialize_timers (S (length d)) (Some d) = Ok (fold_left apply_item l timers0)) \/
  ((forall l, Forall item_ok l -> d <> stored l) /\ deserialize_timers (S (length d)) (Some d) = Err KNOT_EMALF).
Proof.
  intros d HB HL HS. assert (G : forall l, Forall item_ok l -> d = stored l -> deserialize_timers (S (length d)) (Some d) = Ok (fold_left apply_item l timers0)).
  { intros l F ->. apply deserialize_stored; auto. pose proof (stored_len l F). lia. }
  destruct (split_bytes d HB HL) as (l & rest & F & E & C). destruct rest as [|c rest].
  - left. exists l. rewrite app_nil_r in E. auto.
  - right. assert (X : deserialize_timers (S (length d)) (Some d) = Err KNOT_EMALF).
    { destruct (read_any d HB HL HS) as [X|X]; auto. exfalso. destruct X as [t X]. subst d. revert X. unfold deserialize_timers.
      pose proof (stored_len l F) as SL. pose proof (at_const _ HL) as A0.
      assert (FU : S (length (stored l ++ c :: rest)) = (length l + S (length (stored l) - length l + length (c :: rest)))%nat) by (rewrite app_length; lia). rewrite FU.
      destruct (deser_items l _ [] (c :: rest) (S (length (stored l) - length l + length (c :: rest))) timers0 F A0) as (w & -> & A). cbn [app] in A. destruct C as [C|(m & Em & C)].
      - rewrite (deser_end _ _ _ _ _ A C). cbn [rbind]. rewrite (avail_at _ _ _ A), zlen_cons. pose proof (zlen_nonneg rest). replace (1 + zlen rest =? 0) with false by lia. discriminate.
      - destruct (zlen m =? 8) eqn:E8; [|exfalso; apply HS; exists l, m; repeat split; auto; try lia; congruence]. rewrite Em in *. assert (zlen m = 8) by lia. intros X. cbn [deser_loop] in X. rewrite (avail_at _ _ _ A), zlen_cons, H in X. change (1 + 8 >=? TIMER_SIZE) with true in X. unfold wire_read_u8 in X.
        change (139 :: m) with ([139] ++ m) in A. destruct (c48_read _ _ _ _ A) as (w1 & E1 & A1). change (zlen [139]) with 1 in E1. rewrite E1 in X. cbn [rbind] in X. change (unbe [139] =? TIMER_LAST_MASTER) with true in X. cbn iota in X.
        rewrite (c48_read_past_end _ _ _ MASTER_SIZE A1) in X by (unfold MASTER_SIZE; lia). cbn [rbind length] in X. replace (length (stored l) - length l + S (length m))%nat with (S (length (stored l) - length l + length m))%nat in X by lia.
        cbn [deser_loop] in X. replace (wire_available (set_err w1 KNOT_EFEWDATA)) with 8 in X. 2:{ rewrite <- H, <- (avail_at _ _ _ A1). reflexivity. } change (8 >=? TIMER_SIZE) with false in X. cbn [rbind] in X.
        replace (wire_available (set_err w1 KNOT_EFEWDATA)) with 8 in X. 2:{ rewrite <- H, <- (avail_at _ _ _ A1). reflexivity. } discriminate X. }
    split; auto. intros l' F' E'. rewrite (G l' F' E') in X. discriminate.
Qed.
Example c36_read_any_case : ~ short_master ([138] ++ be 8 77 ++ [1; 2]) /\ deserialize_timers 100 (Some ([138] ++ be 8 77 ++ [1; 2])) = Err KNOT_EMALF /\
  match deserialize_timers 100 (Some ([138] ++ be 8 77)) with Ok t => tm_next_expire t | _ => 0 end = 77.
Proof.
  split; [|split; reflexivity]. intros (l & m & F & E & H). destruct l as [|i l]; [discriminate|]. apply (f_equal zlen) in E. rewrite !zlen_app, zlen_cons in E. cbn [be] in E. rewrite !zlen_cons in E. change (zlen (@nil Z)) with 0 in E.
  inversion F; subst. pose proof (item_len i H2). unfold stored in E. cbn [map concat] in E. rewrite zlen_app in E. pose proof (zlen_nonneg (concat (map item_bytes l))). destruct i; lia.
Qed.
Lemma stuck : forall fuel w t, wf w -> w_err w <> KNOT_EOK -> 9 <= wire_available w -> deser_loop fuel w t = OOF.
Proof.
  induction fuel as [|fuel IH]; intros w t W He Ha; cbn [deser_loop]; auto. replace (wire_available w >=? TIMER_SIZE) with true by (unfold TIMER_SIZE; lia).
  unfold wire_read_u8. rewrite c48_error_reads_zero by (auto; lia). cbn [rbind]. change (unbe (zeros 1) =? TIMER_LAST_MASTER) with false. cbn iota. unfold wire_read_u64. rewrite c48_error_reads_zero by (auto; lia). cbn [rbind]. apply IH; auto.
Qed.
(** Reading such a value does not terminate, however long it runs. *)
Theorem c36_read_terminates_refuted : forall d, bytes d -> zlen d < 2 ^ 63 -> short_master d -> forall fuel, deserialize_timers fuel (Some d) = OOF.
Proof.
  intros d HB HL (l & m & F & -> & Hm) fuel. unfold deserialize_timers.
  assert (G : forall l w pre t fuel, Forall item_ok l -> at_ w pre (stored l ++ 139 :: m) -> deser_loop fuel w t = OOF).
  { clear l fuel F HB HL. induction l as [|i l IH]; intros w pre t fuel F HA; (destruct fuel as [|fuel]; [reflexivity|]).
    - cbn [stored map concat app] in HA. cbn [deser_loop]. rewrite (avail_at _ _ _ HA), zlen_cons. replace (1 + zlen m >=? TIMER_SIZE) with true by (unfold TIMER_SIZE; lia). unfold wire_read_u8.
      change (139 :: m) with ([139] ++ m) in HA. destruct (c48_read _ _ _ _ HA) as (w1 & E1 & A1). change (zlen [139]) with 1 in E1. rewrite E1. cbn [rbind]. change (unbe [139] =? TIMER_LAST_MASTER) with true. cbn iota.
      rewrite (c48_read_past_end _ _ _ MASTER_SIZE A1) by (unfold MASTER_SIZE; lia). cbn [rbind]. pose proof (avail_at _ _ _ A1) as AV. pose proof (at_wf _ _ _ A1) as [W1 _]. apply stuck; [exact W1|discriminate|].
      replace (wire_available (set_err w1 KNOT_EFEWDATA)) with (zlen m) by (rewrite <- AV; reflexivity). lia.
    - inversion F; subst. unfold stored in HA. cbn [map concat] in HA. rewrite <- app_assoc in HA. destruct (deser_item i w pre _ fuel t H1 HA) as (w1 & -> & A1). eapply IH; eauto. }
  rewrite (G l _ [] timers0 fuel F (at_const _ HL)). reflexivity.
Qed.
Example c36_short_master_case : short_master (139 :: repeat 0 12) /\ forall fuel, deserialize_timers fuel (Some (139 :: repeat 0 12)) = OOF.
Proof.
  assert (H : short_master (139 :: repeat 0 12)). { exists [], (repeat 0 12). split; [constructor|]. split; [reflexivity|vm_compute; split; congruence]. }
  split; auto. apply c36_read_terminates_refuted; auto; [|reflexivity]. repeat (apply Forall_cons; [vm_compute; split; congruence|]). apply Forall_nil.
Qed.
(** Identifiers that are not known are skipped. *)
Theorem c36_unknown : forall l1 l2 id v, Forall item_ok l1 -> Forall item_ok l2 -> item_ok (Num id v) -> ~ In id [128; 129; 130; 131; 133; 134; 135; 136; 137; 138; 140] -> zlen (stored (l1 ++ Num id v :: l2)) < 2 ^ 63 ->
  deserialize_timers (S (length (l1 ++ Num id v :: l2))) (Some (stored (l1 ++ Num id v :: l2))) = deserialize_timers (S (length (l1 ++ l2))) (Some (stored (l1 ++ l2))).
Proof.
  intros l1 l2 id v H1 H2 Hi Hn HL.
  assert (HL2 : zlen (stored (l1 ++ l2)) <= zlen (stored (l1 ++ Num id v :: l2))).
  { unfold stored. rewrite !map_app, !concat_app, !zlen_app. cbn [map concat]. rewrite zlen_app. match goal with |- context [zlen (item_bytes ?x)] => pose proof (zlen_nonneg (item_bytes x)) end. lia. }
  rewrite !deserialize_stored; auto; try lia; try (apply Forall_app; split; auto). rewrite !fold_left_app. cbn [fold_left apply_item]. f_equal. f_equal.
  destruct (fold_left apply_item l1 timers0). unfold set_timer, TIMER_SOA_EXPIRE, TIMER_LAST_FLUSH, TIMER_LAST_REFRESH, TIMER_NEXT_REFRESH, TIMER_LAST_REFR_OK, TIMER_LAST_NOTIFIED, TIMER_NEXT_DS_CHECK, TIMER_NEXT_DS_PUSH, TIMER_CATALOG_MEMBER, TIMER_NEXT_EXPIRE, TIMER_MASTER_PIN_HIT.
  cbn [In] in Hn. cbn [item_ok] in Hi. repeat match goal with |- context [id =? ?c] => replace (id =? c) with false by lia end. reflexivity.
Qed.

(** ** Writing and reading back *)
Definition has_master (t : timers) : Prop := family (tm_last_master t) = 2 \/ family (tm_last_master t) = 10.
(** what is stored: everything but the two deprecated fields; the master and its pin only if there is an address *)
Definition persisted (t : timers) : timers :=
  let m := if (family (tm_last_master t) =? 2) || (family (tm_last_master t) =? 10) then true else false in
  mktimers 0 (tm_last_flush t) 0 (tm_next_refresh t) (tm_last_refresh_ok t) (tm_last_notified t) (tm_next_ds_check t) (tm_next_ds_push t)
    (tm_catalog_member t) (tm_next_expire t) (if m then tm_last_master t else zeros 28) (if m then tm_master_pin_hit t else 0).
Definition timers_items (t : timers) : list item :=
  [Num 129 (u64 (tm_last_flush t)); Num 131 (u64 (tm_next_refresh t)); Num 137 (if tm_last_refresh_ok t then 1 else 0); Num 136 (tm_last_notified t);
   Num 133 (u64 (tm_next_ds_check t)); Num 134 (u64 (tm_next_ds_push t)); Num 135 (u64 (tm_catalog_member t)); Num 138 (u64 (tm_next_expire t))] ++
  (if (family (tm_last_master t) =? 2) || (family (tm_last_master t) =? 10) then [Master (tm_last_master t); Num 140 (u64 (tm_master_pin_hit t))] else []).
Lemma u64_range : forall v, 0 <= u64 v < 2 ^ 64.
Proof. intros. unfold u64. apply Z.mod_pos_bound. lia. Qed.
Lemma s64_u64 : forall v, time_ok v -> s64 (u64 v) = v.
Proof. intros v H. unfold s64, u64, time_ok in *. cbv zeta. rewrite Z.mod_mod by lia. destruct (v mod 2 ^ 64 <? 2 ^ 63) eqn:E; lia. Qed.
Lemma timers_items_ok : forall t, timers_ok t -> Forall item_ok (timers_items t).
Proof.
  intros t (H1 & H2 & H3 & H4 & H5 & H6 & H7 & H8 & H9 & H10 & H11 & H12). unfold timers_items. apply Forall_app. split.
  - repeat (apply Forall_cons; [cbn [item_ok]; repeat split; try apply u64_range; try lia; destruct (tm_last_refresh_ok t); lia|]). apply Forall_nil.
  - destruct (_ || _); [|constructor]. apply Forall_cons; [cbn [item_ok]; auto|]. apply Forall_cons; [|constructor]. cbn [item_ok]. repeat split; try apply u64_range; lia.
Qed.
Lemma timers_args_ok : forall t, timers_ok t -> Forall karg_ok (timers_args t) /\ encs (timers_args t) = stored (timers_items t) /\ 0 < zlen (encs (timers_args t)) < 1000.
Proof.
  intros t (H1 & H2 & H3 & H4 & H5 & H6 & H7 & H8 & H9 & H10 & H11 & H12). unfold timers_args, timers_items. split; [|split].
  - apply Forall_app. split.
    + repeat (apply Forall_cons; [cbn [karg_ok]; first [lia|match goal with |- context [u64] => apply u64_range end|unfold TIMER_LAST_FLUSH, TIMER_NEXT_REFRESH, TIMER_LAST_REFR_OK, TIMER_LAST_NOTIFIED, TIMER_NEXT_DS_CHECK, TIMER_NEXT_DS_PUSH, TIMER_CATALOG_MEMBER, TIMER_NEXT_EXPIRE; lia|destruct (tm_last_refresh_ok t); lia]|]). apply Forall_nil.
    + destruct (_ || _); [|constructor]. repeat apply Forall_cons; cbn [karg_ok]; try match goal with |- context [u64] => apply u64_range end; try (unfold TIMER_LAST_MASTER, TIMER_MASTER_PIN_HIT; lia); auto. split; auto. intros Hc. rewrite Hc in H11. discriminate.
  - unfold encs, stored. destruct (_ || _); cbn [app map concat enc item_bytes]; rewrite <- ?app_assoc; reflexivity.
  - unfold encs. rewrite map_app, concat_app, zlen_app. cbn [map concat enc]. rewrite !zlen_app, !be_length. change (zlen (@nil Z)) with 0. destruct (_ || _); cbn [map concat enc]; rewrite ?zlen_app, ?be_length, ?H11; change (zlen (@nil Z)) with 0; lia.
Qed.
Lemma apply_persisted : forall t, timers_ok t -> fold_left apply_item (timers_items t) timers0 = persisted t.
Proof.
  intros t (H1 & H2 & H3 & H4 & H5 & H6 & H7 & H8 & H9 & H10 & H11 & H12). unfold timers_items, persisted. rewrite fold_left_app. cbn [fold_left apply_item].
  repeat match goal with |- context [set_timer ?x ?i ?v] => let r := eval cbv [set_timer timers0 TIMER_SOA_EXPIRE TIMER_LAST_FLUSH TIMER_LAST_REFRESH TIMER_NEXT_REFRESH TIMER_LAST_REFR_OK TIMER_LAST_NOTIFIED TIMER_NEXT_DS_CHECK TIMER_NEXT_DS_PUSH TIMER_CATALOG_MEMBER TIMER_NEXT_EXPIRE TIMER_MASTER_PIN_HIT Z.eqb Pos.eqb] in (set_timer x i v) in change (set_timer x i v) with r end.
  rewrite !s64_u64 by auto. destruct (_ || _); cbn [fold_left apply_item set_master tm_soa_expire tm_last_flush tm_last_refresh tm_next_refresh tm_last_refresh_ok tm_last_notified tm_next_ds_check tm_next_ds_push tm_catalog_member tm_next_expire tm_last_master tm_master_pin_hit].
  - match goal with |- context [set_timer ?x ?i ?v] => let r := eval cbv [set_timer TIMER_SOA_EXPIRE TIMER_LAST_FLUSH TIMER_LAST_REFRESH TIMER_NEXT_REFRESH TIMER_LAST_REFR_OK TIMER_LAST_NOTIFIED TIMER_NEXT_DS_CHECK TIMER_NEXT_DS_PUSH TIMER_CATALOG_MEMBER TIMER_NEXT_EXPIRE TIMER_MASTER_PIN_HIT Z.eqb Pos.eqb] in (set_timer x i v) in change (set_timer x i v) with r end.
    rewrite !s64_u64 by auto. f_equal. destruct (tm_last_refresh_ok t); reflexivity.
  - f_equal. destruct (tm_last_refresh_ok t); reflexivity.
Qed.

(** a zone's name in memory, with anything behind it *)
Definition zone_name (z : list Z) (ls : list label) : Prop := legal_labels ls /\ zlen (DnameSpec.wire ls) <= 255 /\ exists j, z = DnameSpec.wire ls ++ j.
Lemma zone_key : forall z ls, zone_name z ls -> exists n, dname_size z = Ok n /\ take z n = Ok (DnameSpec.wire ls) /\ 0 < zlen (DnameSpec.wire ls) <= LMDB_MAXKEY.
Proof.
  intros z ls (L & N & j & ->). destruct (name_bytes_wire ls j L) as [_ E]. exists (zlen (DnameSpec.wire ls)). split; auto. split; [apply take_app|]. unfold LMDB_MAXKEY. split; [|lia].
  destruct ls; cbn [DnameSpec.wire]; rewrite zlen_cons; match goal with |- context [zlen ?x] => pose proof (zlen_nonneg x); lia end.
Qed.
(** the database after writing the timers of some zones, in order *)
Definition tvalue (t : timers) : list Z := stored (timers_items t).
Fixpoint db_after (d : db) (zs : list (list label * timers)) : db := match zs with [] => d | (ls, t) :: zs => db_after (db_put d (DnameSpec.wire ls) (tvalue t)) zs end.
Lemma write_one : forall fresh t z ls tm, zone_name z ls -> timers_ok tm -> txn_write_timers true fresh t z tm = Ok (snd (lmdb_insert t (Some (DnameSpec.wire ls)) (tvalue tm))).
Proof.
  intros fresh t z ls tm HZ HT. destruct (zone_key z ls HZ) as (n & E1 & E2 & _). unfold txn_write_timers. rewrite E1. cbn [rbind]. rewrite E2. cbn [rbind].
  destruct (timers_args_ok tm HT) as (A & B & C). destruct (c53_make_key fresh (timers_args tm)) as [-> _]; auto; [discriminate|lia|]. cbn [rbind]. rewrite B. reflexivity.
Qed.
Lemma write_all_exec : forall fresh zs t zs', Forall2 (fun z l => zone_name (fst z) (fst l) /\ timers_ok (snd z) /\ snd l = snd z) zs zs' ->
  write_all_loop true fresh t zs = lexec (map (fun l => OInsert (DnameSpec.wire (fst l)) (tvalue (snd l))) zs') t.
Proof.
  induction zs as [|[z tm] zs IH]; intros t zs' H; inversion H; subst; cbn [write_all_loop map lexec lexec1]; auto. destruct y as [ls tm']. cbn [fst snd] in *. destruct H2 as (HZ & HT & ->).
  rewrite (write_one fresh t z ls tm HZ HT). cbn [rbind]. auto.
Qed.
Lemma quiet_inserts : forall zs d, Forall (fun l => 0 < zlen (DnameSpec.wire (fst l)) <= LMDB_MAXKEY) zs ->
  forall t, ready t -> t_io t = [] -> t_rw t = true -> t_data t = d -> exists t', lexec (map (fun l => OInsert (DnameSpec.wire (fst l)) (tvalue (snd l))) zs) t = Ok t' /\ ready t' /\ t_io t' = [] /\ t_rw t' = true /\ t_data t' = db_after d zs.
Proof.
  induction zs as [|[ls tm] zs IH]; intros d H t R I W D; cbn [map lexec lexec1 db_after fst snd]; [exists t; auto|]. inversion H; subst. cbn [fst] in *. cbn [rbind].
  assert (SN : io_sane (t_io t)) by (rewrite I; constructor).
  destruct (insert_ok t (DnameSpec.wire ls) (tvalue tm) R SN H2) as [(R' & D' & W' & S' & I')|(X & Y)]; [|exfalso; apply Y; auto].
  apply IH; auto; congruence.
Qed.
(** Writing the timers of all zones is one transaction: on an error nothing changes, on success each zone's
    record is replaced and the others stay. *)
Theorem c36_write_all : forall fresh d io zs zs', io_sane io -> Forall2 (fun z l => zone_name (fst z) (fst l) /\ timers_ok (snd z) /\ snd l = snd z) zs zs' ->
  exists d' ret, timers_write_all true fresh d io zs = Ok (d', ret) /\ (ret <> KNOT_EOK -> d' = d) /\ (ret = KNOT_EOK -> d' = db_after d zs') /\ (io = [] -> ret = KNOT_EOK).
Proof.
  intros fresh d io zs zs' S H. unfold timers_write_all. rewrite (write_all_exec fresh zs _ zs' H).
  assert (HK : Forall (fun l => 0 < zlen (DnameSpec.wire (fst l)) <= LMDB_MAXKEY) zs').
  { clear - H. induction H as [|[z tm] [ls tm'] zs zs' (HZ & _) H IH]; constructor; auto. cbn [fst] in *. destruct (zone_key z ls HZ) as (n & _ & _ & A). auto. }
  assert (Q : exists t0, lexec (map (fun l => OInsert (DnameSpec.wire (fst l)) (tvalue (snd l))) zs') (lmdb_begin d true []) = Ok t0 /\ ready t0 /\ t_io t0 = [] /\ t_rw t0 = true /\ t_data t0 = db_after d zs').
  { apply quiet_inserts; auto. split; reflexivity. }
  assert (E : exists t, lexec (map (fun l => OInsert (DnameSpec.wire (fst l)) (tvalue (snd l))) zs') (lmdb_begin d true io) = Ok t).
  { generalize (lmdb_begin d true io). clear. induction zs' as [|l zs' IH]; intros t; cbn [map lexec lexec1]; [eauto|]. cbn [rbind]. apply IH. }
  destruct E as [t E]. rewrite E. cbn [rbind]. destruct (lmdb_commit d t) as [d' t'] eqn:Ec. exists d', (t_ret t'). split; auto.
  destruct (c53_atomic _ _ _ _ _ _ S E Ec) as [A B]. split; auto. destruct Q as (t0 & Q1 & Q2 & Q3 & Q4 & Q5). split.
  - intros Hr. destruct (B Hr) as (t1 & B1 & _ & ->). congruence.
  - intros ->. assert (t = t0) by congruence. subst. unfold lmdb_commit in Ec. rewrite semcheck_ready in Ec by auto. cbn [negb set_cur t_io] in Ec. rewrite Q3 in Ec. cbn [io_next] in Ec. injection Ec as _ <-. reflexivity.
Qed.
Lemma read_spec : forall fuel d z ls tm0, zone_name z ls -> sorted d -> 
  (forall tm, timers_ok tm -> (10 < fuel)%nat -> In (DnameSpec.wire ls, tvalue tm) d -> timers_read fuel d [] z tm0 = Ok (KNOT_EOK, persisted tm)) /\
  ((forall v, ~ In (DnameSpec.wire ls, v) d) -> tm_last_refresh tm0 <= 0 -> timers_read fuel d [] z tm0 = Ok (KNOT_ENOENT, tm0)).
Proof.
  intros fuel d z ls tm0 HZ So. destruct (zone_key z ls HZ) as (n & E1 & E2 & EK). unfold timers_read. rewrite E1. cbn [rbind]. rewrite E2. cbn [rbind].
  destruct (lmdb_find (lmdb_begin d false []) (Some (DnameSpec.wire ls)) EXACT true) as [b t] eqn:Ef. assert (R : ready (lmdb_begin d false [])) by (split; reflexivity).
  pose proof (find_spec _ _ _ _ _ _ Ef R (Forall_nil _) So) as (_ & _ & _ & _ & _ & T & F & F2 & _). change (t_data (lmdb_begin d false [])) with d in *.
  assert (NE : DnameSpec.wire ls <> []) by (destruct ls; discriminate). split.
  - intros tm HT Hf Hi. destruct b.
    + destruct (T eq_refl) as ([_ Hr] & _ & Hh & Hk). rewrite Hk in Hh. rewrite (sorted_unique d _ _ _ So Hh Hi). unfold tvalue. rewrite deserialize_stored; auto.
      * cbn [rbind]. rewrite apply_persisted by auto. cbn [persisted tm_last_refresh]. change (0 >? 0) with false. rewrite andb_false_r. cbn [rbind]. rewrite Hr. reflexivity.
      * apply timers_items_ok; auto.
      * destruct (timers_args_ok tm HT) as (_ & <- & B). lia.
      * unfold timers_items. destruct (_ || _); cbn [app length]; lia.
    + destruct (F2 eq_refl eq_refl eq_refl NE) as [_ M]. exfalso. apply (M _ _ Hi). reflexivity.
  - intros Hn Hl. destruct b.
    + destruct (T eq_refl) as (_ & _ & Hh & Hk). rewrite Hk in Hh. exfalso. eapply Hn; eauto.
    + destruct (F2 eq_refl eq_refl eq_refl NE) as [Hr _]. cbn [rbind]. replace (tm_last_refresh tm0 >? 0) with false by lia. rewrite andb_false_r. cbn [rbind]. rewrite Hr. reflexivity.
Qed.
Lemma db_after_sorted : forall zs d, sorted d -> sorted (db_after d zs).
Proof. induction zs as [|[ls t] zs IH]; intros d H; cbn [db_after]; auto. apply IH. apply db_put_sorted. auto. Qed.
Lemma wire_inj : forall a b, legal_labels a -> legal_labels b -> DnameSpec.wire a = DnameSpec.wire b -> a = b.
Proof.
  induction a as [|l a IH]; intros [|m b] HA HB E; cbn [DnameSpec.wire] in E; auto.
  - inversion HB; subst. injection E as E1 _. destruct H1 as [H1 _]. destruct H1; lia.
  - inversion HA; subst. injection E as E1 _. destruct H1 as [H1 _]. destruct H1; lia.
  - inversion HA; subst. inversion HB; subst. injection E as E1 E2. assert (EL : l = m /\ DnameSpec.wire a = DnameSpec.wire b).
    { apply (f_equal (zfirstn (zlen l))) in E2 as E3. apply (f_equal (zskipn (zlen l))) in E2 as E4. rewrite WireProofs.zfirstn_app_exact, E1, WireProofs.zfirstn_app_exact in E3. rewrite WireProofs.zskipn_app_exact, E1, WireProofs.zskipn_app_exact in E4. auto. }
    destruct EL as [-> EL]. f_equal. auto.
Qed.
(** Round trip: timers written for a zone and read back later are what was stored, and the timers of every
    other zone are unaffected. With a known master nothing but the two deprecated fields is lost. *)
Theorem c36_round_trip_partial : forall fresh d zone ls tm tm0 fuel, sorted d -> zone_name zone ls -> timers_ok tm -> (10 < fuel)%nat ->
  exists d', timers_write true fresh d [] zone tm = Ok (d', KNOT_EOK) /\ sorted d' /\
  timers_read fuel d' [] zone tm0 = Ok (KNOT_EOK, persisted tm) /\
  (has_master tm -> tm_soa_expire tm = 0 -> tm_last_refresh tm = 0 -> persisted tm = tm) /\
  (forall ls' v, legal_labels ls' -> ls' <> ls -> (In (DnameSpec.wire ls', v) d' <-> In (DnameSpec.wire ls', v) d)).
Proof.
  intros fresh d zone ls tm tm0 fuel So HZ HT Hf.
  destruct (c36_write_all fresh d [] [(zone, tm)] [(ls, tm)]) as (d' & ret & E & _ & B & C); [constructor|constructor; [cbn [fst snd]; auto|constructor]|].
  specialize (C eq_refl). subst ret. specialize (B eq_refl). cbn [db_after] in B. exists d'. split.
  { unfold timers_write_all in E. cbn [write_all_loop] in E. unfold timers_write. destruct (txn_write_timers true fresh (lmdb_begin d true []) zone tm); cbn [rbind] in *; auto. }
  assert (So' : sorted d') by (subst; apply db_put_sorted; auto). split; auto. split.
  { apply (proj1 (read_spec fuel d' zone ls tm0 HZ So')); auto. subst d'. apply db_put_in; auto. }
  split.
  - intros HM H1 H2. unfold persisted. destruct tm as [se lf lr nr ok ln dc dp cm ne ma pi]; cbn [tm_soa_expire tm_last_flush tm_last_refresh tm_next_refresh tm_last_refresh_ok tm_last_notified tm_next_ds_check tm_next_ds_push tm_catalog_member tm_next_expire tm_last_master tm_master_pin_hit] in *. subst.
    unfold has_master in HM. cbn [tm_last_master] in HM. replace ((family _ =? 2) || (family _ =? 10)) with true by lia. reflexivity.
  - intros ls' v HL Hn. subst d'. rewrite db_put_in by auto. split; [intros [[H _]|[_ H]]; auto; exfalso; apply Hn; apply wire_inj; auto; apply HZ|]. intros H. right. split; auto. intros Hw. apply Hn. apply wire_inj; auto. apply HZ.
Qed.
(** Without an address the pin is lost. *)
Theorem c36_round_trip_refuted : exists tm, timers_ok tm /\ tm_soa_expire tm = 0 /\ tm_last_refresh tm = 0 /\
  forall fresh d zone ls tm0 fuel, sorted d -> zone_name zone ls -> (10 < fuel)%nat ->
  exists d' tm', timers_write true fresh d [] zone tm = Ok (d', KNOT_EOK) /\ timers_read fuel d' [] zone tm0 = Ok (KNOT_EOK, tm') /\ tm' <> tm.
Proof.
  exists (mktimers 0 5 0 6 true 7 8 9 10 11 (zeros 28) 12).
  assert (HT : timers_ok (mktimers 0 5 0 6 true 7 8 9 10 11 (zeros 28) 12)).
  { unfold timers_ok, time_ok. cbn [tm_soa_expire tm_last_flush tm_last_refresh tm_next_refresh tm_last_refresh_ok tm_last_notified tm_next_ds_check tm_next_ds_push tm_catalog_member tm_next_expire tm_last_master tm_master_pin_hit].
    repeat split; try lia. unfold zeros, bytes. apply Forall_forall. intros x Hx. apply repeat_spec in Hx. subst. unfold byte. lia. }
  split; auto. split; auto. split; auto. intros fresh d zone ls tm0 fuel So HZ Hf. destruct (c36_round_trip_partial fresh d zone ls _ tm0 fuel So HZ HT Hf) as (d' & A & _ & B & _). exists d'. eexists. split; [exact A|]. split; [exact B|]. vm_compute. congruence.
Qed.
Example c36_round_trip_case : let tm := mktimers 0 5 0 (-6) true (2 ^ 32 + 7) 8 9 10 11 ([10; 0] ++ zeros 26) 12 in
  timers_ok tm /\ has_master tm /\ zone_name [3; 110; 101; 116; 0] [[110; 101; 116]].
Proof.
  split; [|split; [right; reflexivity|]].
  - unfold timers_ok, time_ok. cbn [tm_soa_expire tm_last_flush tm_last_refresh tm_next_refresh tm_last_refresh_ok tm_last_notified tm_next_ds_check tm_next_ds_push tm_catalog_member tm_next_expire tm_last_master tm_master_pin_hit].
    repeat split; try lia. repeat (apply Forall_cons; [vm_compute; split; congruence|]). apply Forall_nil.
  - split; [repeat constructor; vm_compute; congruence|]. split; [vm_compute; congruence|]. exists []. reflexivity.
Qed.
(** A zone without timers: "not found", and the caller's timers are untouched. *)
Theorem c36_absent : forall fuel d zone ls tm0, zone_name zone ls -> sorted d -> (forall v, ~ In (DnameSpec.wire ls, v) d) -> tm_last_refresh tm0 <= 0 ->
  timers_read fuel d [] zone tm0 = Ok (KNOT_ENOENT, tm0).
Proof. intros. eapply (proj2 (read_spec fuel d zone ls tm0 H H0)); auto. Qed.
(** Records of the old format give the expiration as last refresh plus SOA expire. *)
Theorem c36_old_format : forall fuel d zone ls lr se tm0, zone_name zone ls -> sorted d -> 0 < lr -> 0 <= se < 2 ^ 32 -> lr + se < 2 ^ 63 -> (2 < fuel)%nat ->
  In (DnameSpec.wire ls, stored [Num 128 se; Num 130 lr]) d ->
  exists tm, timers_read fuel d [] zone tm0 = Ok (KNOT_EOK, tm) /\ tm_next_expire tm = lr + se /\ tm_next_refresh tm = 0.
Proof.
  intros fuel d zone ls lr se tm0 HZ So Hl Hs Ho Hf Hi. destruct (zone_key zone ls HZ) as (n & E1 & E2 & EK). unfold timers_read. rewrite E1. cbn [rbind]. rewrite E2. cbn [rbind].
  destruct (lmdb_find (lmdb_begin d false []) (Some (DnameSpec.wire ls)) EXACT true) as [b t] eqn:Ef. assert (R : ready (lmdb_begin d false [])) by (split; reflexivity).
  pose proof (find_spec _ _ _ _ _ _ Ef R (Forall_nil _) So) as (_ & _ & _ & _ & _ & T & F & F2 & _). change (t_data (lmdb_begin d false [])) with d in *.
  assert (NE : DnameSpec.wire ls <> []) by (destruct ls; discriminate). destruct b.
  - destruct (T eq_refl) as ([_ Hr] & _ & Hh & Hk). rewrite Hk in Hh. rewrite (sorted_unique d _ _ _ So Hh Hi). rewrite deserialize_stored.
    + cbn [rbind fold_left apply_item]. change (set_timer timers0 128 se) with (mktimers (u32 se) 0 0 0 false 0 0 0 0 0 (zeros MASTER_SIZE) 0).
      change (set_timer (mktimers (u32 se) 0 0 0 false 0 0 0 0 0 (zeros MASTER_SIZE) 0) 130 lr) with (mktimers (u32 se) 0 (s64 lr) 0 false 0 0 0 0 0 (zeros MASTER_SIZE) 0). cbn [tm_next_expire tm_last_refresh].
      replace (s64 lr) with lr by (unfold s64, u64; cbv zeta; rewrite (Z.mod_small lr) by lia; replace (lr <? 2 ^ 63) with true by lia; auto). replace (u32 se) with se by (unfold u32; rewrite Z.mod_small by lia; auto).
      change (0 =? 0) with true. replace (lr >? 0) with true by lia. cbn [andb]. replace (lr + se >=? 2 ^ 63) with false by lia. cbn [rbind]. rewrite Hr. eexists. split; [reflexivity|]. auto.
    + repeat constructor; cbn [item_ok]; lia.
    + unfold stored. cbn [map concat item_bytes]. rewrite !zlen_app, !be_length. change (zlen (@nil Z)) with 0. lia.
    + cbn [length]. lia.
  - destruct (F2 eq_refl eq_refl eq_refl NE) as [_ M]. exfalso. apply (M _ _ Hi). reflexivity.
Qed.
(** Sweeping: on success exactly the records of the kept zones remain; on an error nothing changes. *)
Theorem c36_sweep : forall d io keep, io_sane io -> sorted d ->
  exists d' ret, timers_sweep (S (length d)) d io keep = Ok (d', ret) /\ (ret <> KNOT_EOK -> d' = d) /\
  (ret = KNOT_EOK -> forall k v, In (k, v) d' <-> In (k, v) d /\ keep k = true) /\ (io = [] -> ret = KNOT_EOK).
Proof.
  intros d io keep S So. unfold timers_sweep. set (body := fun (_ : unit) t => if negb (keep (t_ck t)) then let* t := lmdb_del_cur t in Ok (tt, t) else Ok (tt, t)).
  assert (HB : body_ok (fun (s : unit) _ _ => s) (fun k _ => keep k) true body).
  { intros [] t k v R0 S0 So0 C CK CV. destruct (body_del_ok (fun k _ => keep k) tt t k v R0 S0 So0 C CK CV) as (t' & E & H). exists t'. split; auto. rewrite <- E. unfold body, body_del. destruct (keep (t_ck t)); reflexivity. }
  destruct (ready_dec (lmdb_begin d true io)) as [R|R].
  - assert (HS : io_sane (t_io (lmdb_begin d true io))). { unfold lmdb_begin. destruct (io_next io) as [e io'] eqn:E. destruct (io_next_sane _ _ _ S E) as (A & _). destruct (e =? 0); auto. }
    assert (HD : t_data (lmdb_begin d true io) = d). { unfold lmdb_begin. destruct (io_next io) as [e io']. destruct (e =? 0); auto. }
    assert (HW : t_rw (lmdb_begin d true io) = true). { destruct R as [R1 R2]. unfold lmdb_begin in *. destruct (io_next io) as [e io']. destruct (e =? 0); auto. }
    destruct (forwhole_spec _ _ _ _ body HB (Datatypes.S (length d)) tt (lmdb_begin d true io)) as (u & t & E & H); auto; rewrite ?HD in *; auto. rewrite E. cbn [rbind].
    destruct (lmdb_commit d t) as [d' t'] eqn:Ec. exists d', (t_ret t'). split; auto. destruct H as [(R1 & _ & Hd & Hw & HS1 & Hi)|(X & Y)].
    + unfold lmdb_commit in Ec. rewrite semcheck_ready in Ec by auto. cbn [negb set_cur t_io t_rw t_data] in Ec. destruct (io_next (t_io t)) as [e io1] eqn:Ei. cbn [set_opened set_ret set_io set_cur t_rw t_data] in Ec. rewrite Hw, HW in Ec. injection Ec as <- <-. cbn [t_ret set_opened set_ret].
      destruct (e =? 0) eqn:E0; cbn [andb].
      * assert (e = 0) by lia. subst e. change (err_to_knot 0) with KNOT_EOK. split; [congruence|]. split; auto. intros _ k v. rewrite Hd, filter_In. reflexivity.
      * assert (err_to_knot e <> KNOT_EOK) by (intros Hc; apply (proj1 (err_to_knot_0 e)) in Hc; lia). split; auto. split; [congruence|]. intros ->. rewrite (Hi eq_refl) in Ei. injection Ei as <- <-. lia.
    + rewrite commit_dead in Ec by auto. injection Ec as <- <-. rewrite abort_ret. split; auto. split; [congruence|]. intros ->. exfalso. apply Y. split; auto.
  - unfold forwhole, lmdb_first. pose proof (notready _ R) as (A & B & C). destruct (txn_semcheck (lmdb_begin d true io)) as [ok t1] eqn:Es. cbn [fst snd] in *. subst ok. cbn [negb loop_from andb rbind].
    rewrite commit_dead by auto. exists d, (t_ret (lmdb_abort t1)). rewrite abort_ret. split; auto. split; auto. split; [congruence|]. intros ->. exfalso. apply R. split; reflexivity.
Qed.
Example c36_sweep_case : exists d', timers_sweep 9 [([0], [1]); ([1; 97; 0], [2]); ([1; 98; 0], [3])] [] (fun z => nth 1 z 0 =? 97) = Ok (d', KNOT_EOK) /\ d' = [([1; 97; 0], [2])].
Proof. eexists. split; vm_compute; reflexivity. Qed.
(** The notified serial: set by storing the serial with bit 32, and recognised only then. *)
Theorem c36_serial_notified : forall t s x, 0 <= s < 2 ^ 32 -> 0 <= x < 2 ^ 32 -> tm_last_notified t = x \/ tm_last_notified t = 2 ^ 32 + x ->
  (serial_notified t s = true <-> tm_last_notified t = 2 ^ 32 + s).
Proof.
  intros t s x Hs Hx H. unfold serial_notified.
  assert (L : Z.land (tm_last_notified t) (Z.shiftl 1 32) = if tm_last_notified t =? x then 0 else 2 ^ 32).
  { destruct H as [->| ->].
    - rewrite Z.eqb_refl. apply Z.bits_inj'. intros n Hn. rewrite Z.land_spec, Z.shiftl_spec, Z.bits_0 by auto. destruct (Z.eq_dec n 32) as [->|Hd].
      + rewrite Z.testbit_eqb by lia. rewrite Z.div_small by lia. reflexivity.
      + rewrite andb_false_iff. right. destruct (n <? 32) eqn:E; [apply Z.testbit_neg_r; lia|]. rewrite Z.testbit_eqb by lia. rewrite Z.div_small; [reflexivity|]. split; [lia|]. apply Z.pow_gt_1; lia.
    - replace (2 ^ 32 + x =? x) with false by lia. change (Z.shiftl 1 32) with (2 ^ 32). apply Z.bits_inj'. intros n Hn. rewrite Z.land_spec. rewrite (Z.pow2_bits_eqb 32) by lia. destruct (32 =? n) eqn:E; [|rewrite andb_false_r; auto].
      rewrite andb_true_r. assert (n = 32) by lia. subst. rewrite Z.testbit_eqb by lia. replace ((2 ^ 32 + x) / 2 ^ 32) with 1 by lia. reflexivity. }
  rewrite L. unfold u32. destruct H as [H|H]; rewrite H.
  - rewrite Z.eqb_refl. change (0 =? 0) with true. cbn [negb andb]. split; [discriminate|lia].
  - replace (2 ^ 32 + x =? x) with false by lia. change (2 ^ 32 =? 0) with false. cbn [negb andb]. replace ((2 ^ 32 + x) mod 2 ^ 32) with x by lia. lia.
Qed.

Print Assumptions c36_read_any_partial. Print Assumptions c36_round_trip_partial. Print Assumptions c36_write_all. Print Assumptions c36_sweep.
