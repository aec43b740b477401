(** C15: TSIG. *)
From Verif Require Import Base DnameModel DnameSpec DnameProofs DnameProofs2 WireModel WireProofs RrwireModel RrwireProofs RrwireProofs2 ComprModel ComprProofs ComprProofs2 PutModel PutProofs PktparseModel PktparseProofs AclModel TsigModel TsigSpec TsigProofs TsigProofs2 TsigProofs3 TsigProofs4 TsigProofs5 TsigProofs6.

(** A key as it is used by the code *)
Definition has_key (k : key) (name : list label) (alg : list label) (size : Z) : Prop :=
  legal_name name /\ k_name k = dwire name /\ algorithm (k_alg k) alg size.
(** The record of a message, as it was parsed *)
Definition parsed (owner : list label) (class ttl : Z) (t : tsig) : rr := mkrr (dwire owner) 250 class ttl (tsig_bytes t).

(** Checking of requests and answers gives exactly the outcome of the specification, provided that the algorithm of the record has
    not longer MACs than the one of the key. *)
Theorem c15_check_partial : forall H k kn ka size owner class ttl t msg mac prev next now,
  is_hmac H -> has_key k kn ka size -> legal_name owner -> legal_tsig t -> 2 <= zlen msg ->
  (forall i s, names_algorithm (t_alg t) i s -> s <= size) ->
  let covered := with_id msg (t_id t) in
  let data := if next : bool then signed_next mac covered t else signed_data mac covered owner class ttl t in
  exists r, check_digest H (Some (parsed owner class ttl t)) msg mac k prev next now true plenty = Ok r /\
    outcome H kn (k_alg k) (k_secret k) owner data t prev now r.
Proof.
  intros H k kn ka size owner class ttl t msg mac prev next now HH (HK & KN & HA) HO HT HM HS. cbv zeta.
  destruct (check_spec H owner 250 class ttl t msg mac k kn prev next now true plenty HH HO HK KN HT HM) as [[_ (i & s & n & s' & N & A & L)]|(r & E & O)].
  - exfalso. pose proof (HS _ _ N). assert (s' = size) by (destruct HA; inversion A; auto). lia.
  - exists r. split; [exact E|]. apply O. left. auto.
Qed.
Theorem c15_outcome_unique : forall H kn ka sec o d t p n r r', outcome H kn ka sec o d t p n r -> outcome H kn ka sec o d t p n r' -> r = r'.
Proof. exact outcome_det. Qed.
(** Whatever the algorithms and the memory are: what is accepted has the name of the key, a MAC of the size of the record's
    algorithm which is the start of the HMAC of the data, and a good time. *)
Theorem c15_sound_partial : forall H k kn owner class ttl t msg mac prev next now copy mem,
  is_hmac H -> legal_name kn -> k_name k = dwire kn -> legal_name owner -> legal_tsig t -> 2 <= zlen msg ->
  check_digest H (Some (parsed owner class ttl t)) msg mac k prev next now copy mem = Ok KNOT_EOK ->
  owner = kn /\ timely t prev now /\ exists i s, names_algorithm (t_alg t) i s /\ zlen (t_mac t) = s /\
    let covered := with_id msg (t_id t) in
    let data := if next : bool then signed_next mac covered t else signed_data mac covered owner class ttl t in
    t_mac t = firstn (Z.to_nat s) (H (k_alg k) (k_secret k) data).
Proof.
  intros H k kn owner class ttl t msg mac prev next now copy mem HH HK KN HO HT HM E.
  destruct (check_spec H owner 250 class ttl t msg mac k kn prev next now copy mem HH HO HK KN HT HM) as [[E' _]|(r & E' & O)]; unfold parsed in E; rewrite E in E'; [discriminate|].
  injection E' as <-. specialize (O (or_intror eq_refl)). inversion O as [| | | | |i s n s' O1 O2 O3 [O4 O4'] O5]; subst. split; [reflexivity|]. split; [auto|]. exists i, (zlen (t_mac t)). repeat split; auto.
Qed.
(** and if the record names the algorithm of the key, the MAC is the whole HMAC *)
Theorem c15_sound : forall H k kn ka size owner class ttl t msg mac prev next now copy mem,
  is_hmac H -> has_key k kn ka size -> legal_name owner -> legal_tsig t -> 2 <= zlen msg -> names_algorithm (t_alg t) (k_alg k) size ->
  check_digest H (Some (parsed owner class ttl t)) msg mac k prev next now copy mem = Ok KNOT_EOK ->
  owner = kn /\ timely t prev now /\
  let covered := with_id msg (t_id t) in
  let data := if next : bool then signed_next mac covered t else signed_data mac covered owner class ttl t in
  t_mac t = H (k_alg k) (k_secret k) data.
Proof.
  intros H k kn ka size owner class ttl t msg mac prev next now copy mem HH (HK & KN & HA) HO HT HM HN E.
  destruct (c15_sound_partial _ _ _ _ _ _ _ _ _ _ _ _ _ _ HH HK KN HO HT HM E) as (E1 & E2 & i & s & N & L & M). split; [auto|]. split; [auto|]. cbv zeta in *.
  destruct (names_unique _ _ _ _ _ N HN) as [-> ->]. rewrite firstn_whole in M; [exact M|]. eapply (proj1 (HH _ _ _ _ _ HA)).
Qed.

(** Signing: the message with its TSIG record behind it, or an error if there is no space for it *)
Theorem c15_sign : forall H k kn ka size msg room max mac rcode req_time now,
  is_hmac H -> has_key k kn ka size -> bytes msg -> 12 <= zlen msg -> max <= zlen (msg ++ room) -> 0 <= req_time < 2 ^ 48 -> 0 <= now < 2 ^ 48 ->
  exists t, legal_tsig t /\ t_alg t = ka /\ t_fudge t = 300 /\ t_id t = message_id msg /\
    (rcode <> 18 -> t_time t = now /\ t_error t = 0 /\ t_other t = []) /\
    (rcode = 18 -> t_time t = req_time /\ t_error t = 18 /\ t_other t = num 6 now) /\
    t_mac t = H (k_alg k) (k_secret k) (signed_data mac msg kn 255 0 t) /\
    let rec := tsig_record kn t in
    tsig_sign H (msg ++ room) (zlen msg) max mac k rcode req_time now plenty =
      if zlen msg + zlen rec <=? max then Ok (with_record msg rec ++ skipn (length rec) room, zlen msg + zlen rec, t_mac t) else Err KNOT_ESPACE.
Proof.
  intros H k kn ka size msg room max mac rcode req_time now HH (HK & KN & HA) HB HM Hmax Hr Hn.
  destruct (sign_spec H msg room kn ka size k max mac rcode req_time now HH HK KN HA HB HM Hmax Hr Hn) as [S L].
  eexists. split; [exact L|]. split; [reflexivity|]. split; [reflexivity|]. split; [reflexivity|].
  split; [intros E; unfold with_mac, unsigned; cbn [t_time t_error t_other]; replace (rcode =? 18) with false by lia; auto|].
  split; [intros ->; auto|]. split; [reflexivity|]. cbv zeta in *. rewrite S. replace (skipn (length _) room) with (zskipn (zlen (tsig_record kn (with_mac (unsigned ka msg (if rcode =? 18 then req_time else now) rcode now) (H (k_alg k) (k_secret k) (signed_data mac msg kn 255 0 (unsigned ka msg (if rcode =? 18 then req_time else now) rcode now)))))) room) by (unfold zskipn, zlen; rewrite Nat2Z.id; reflexivity).
  reflexivity.
Qed.
(** and the next messages *)
Theorem c15_sign_next : forall H k kn ka size msg room max prev dlen now,
  is_hmac H -> has_key k kn ka size -> bytes msg -> 12 <= zlen msg -> max <= zlen (msg ++ room) -> 0 <= now < 2 ^ 48 -> size <= dlen ->
  exists t, legal_tsig t /\ t_alg t = ka /\ t_fudge t = 300 /\ t_id t = message_id msg /\ t_time t = now /\ t_error t = 0 /\ t_other t = [] /\
    t_mac t = H (k_alg k) (k_secret k) (signed_next prev msg t) /\
    let rec := tsig_record kn t in
    tsig_sign_next H (msg ++ room) (zlen msg) max prev dlen k msg now plenty =
      if zlen msg + zlen rec <=? max then Ok (with_record msg rec ++ skipn (length rec) room, zlen msg + zlen rec, t_mac t) else Err KNOT_ESPACE.
Proof.
  intros H k kn ka size msg room max prev dlen now HH (HK & KN & HA) HB HM Hmax Hn Hd.
  destruct (sign_next_spec H msg room kn ka size k max prev dlen now HH HK KN HA HB HM Hmax Hn Hd) as [S L].
  eexists. split; [exact L|]. do 7 (split; [reflexivity|]). cbv zeta in *. rewrite S. replace (skipn (length _) room) with (zskipn (zlen (tsig_record kn (with_mac (unsigned ka msg now 0 0) (H (k_alg k) (k_secret k) (signed_next prev msg (unsigned ka msg now 0 0)))))) room) by (unfold zskipn, zlen; rewrite Nat2Z.id; reflexivity).
  reflexivity.
Qed.

(** An unmodified message signed with the same key is accepted exactly inside the window; a server on the way may have
    changed its identifier. [mac] is that of the request, or empty if the message is a request. *)
Theorem c15_window : forall H k kn ka size msg room max mac now out len digest,
  is_hmac H -> has_key k kn ka size -> bytes msg -> 12 <= zlen msg -> max <= zlen (msg ++ room) -> 0 <= now < 2 ^ 48 ->
  tsig_sign H (msg ++ room) (zlen msg) max mac k 0 0 now plenty = Ok (out, len, digest) ->
  exists t, firstn (Z.to_nat len) out = with_record msg (tsig_record kn t) /\
    forall later id, client_check H (Some (parsed kn 255 0 t)) (with_id msg id) mac k 0 later true plenty =
      Ok (if (now =? 0) || (Z.abs (later - now) >? 300) then KNOT_TSIG_EBADTIME else KNOT_EOK).
Proof.
  intros H k kn ka size msg room max mac now out len digest HH HKY HB HM Hmax Hn HSIG. pose proof HKY as (HK & KN & HA).
  destruct (c15_sign H k kn ka size msg room max mac 0 0 now HH HKY HB HM Hmax ltac:(lia) Hn) as (t & HT & TA & TF & TI & T0 & _ & TM & E). destruct (T0 ltac:(lia)) as (TT & _). rewrite HSIG in E. cbv zeta in E.
  destruct (_ <=? max) eqn:EL; [|discriminate]. injection E as -> -> ->. exists t. split.
  { assert (LW : zlen (with_record msg (tsig_record kn t)) = zlen msg + zlen (tsig_record kn t)).
    { unfold with_record. destruct (header_split msg HM) as (h & x & y & T & EQ & Lh & E1 & E2 & _). rewrite E1, E2. assert (LM : zlen msg = 12 + zlen T) by (rewrite EQ, !zlen_app; change (zlen [x; y]) with 2; lia). rewrite !zlen_app, zlen_num, Lh. lia. }
    rewrite <- LW. apply (zfirstn_app_exact Z). }
  intros later id. assert (NA : names_algorithm (t_alg t) (k_alg k) size) by (exists ka; split; [auto|rewrite TA; eapply algorithm_facts; eauto]).
  assert (L2 : 2 <= zlen (with_id msg id)) by (unfold with_id; rewrite zlen_app, zlen_num; pose proof (zlen_nonneg (skipn 2 msg)); lia).
  destruct (c15_check_partial H k kn ka size kn 255 0 t (with_id msg id) mac 0 false later HH HKY HK HT L2) as (r & E & O).
  { intros i s N. destruct (names_unique _ _ _ _ _ N NA) as [-> ->]. lia. }
  cbv zeta in O. rewrite TI in O. rewrite with_id_same in O by (auto; lia). unfold client_check. rewrite E. f_equal.
  assert (FM : full_mac t size (H (k_alg k) (k_secret k) (signed_data mac msg kn 255 0 t))).
  { destruct (HH _ _ _ (k_secret k) (signed_data mac msg kn 255 0 t) HA) as [HD _]. split; [rewrite TM; auto|rewrite firstn_whole; auto]. }
  eapply outcome_det; [exact O|]. unfold timely in *. destruct ((now =? 0) || (Z.abs (later - now) >? 300)) eqn:EW.
  - eapply wrong_time; eauto. unfold timely. lia.
  - eapply good; eauto. unfold timely. lia.
Qed.

(** A message or a record which were changed on the way are accepted only if the data have the same HMAC *)
Theorem c15_tamper : forall H k kn ka size msg msg' t t' mac now copy mem,
  is_hmac H -> has_key k kn ka size -> bytes msg -> legal_tsig t -> legal_tsig t' -> 2 <= zlen msg -> 2 <= zlen msg' -> names_algorithm (t_alg t') (k_alg k) size ->
  t_mac t = H (k_alg k) (k_secret k) (signed_data mac msg kn 255 0 t) -> t_mac t' = t_mac t ->
  let data := signed_data mac msg kn 255 0 t in
  let data' := signed_data mac (with_id msg' (t_id t')) kn 255 0 t' in
  (H (k_alg k) (k_secret k) data = H (k_alg k) (k_secret k) data' -> data = data') ->
  zlen msg' = zlen msg -> (with_id msg' (t_id t') <> msg \/ lower_name (t_alg t') = lower_name (t_alg t) /\ (t_time t' <> t_time t \/ t_fudge t' <> t_fudge t \/ t_error t' <> t_error t \/ t_other t' <> t_other t)) ->
  client_check H (Some (parsed kn 255 0 t')) msg' mac k 0 now copy mem <> Ok KNOT_EOK.
Proof.
  intros H k kn ka size msg msg' t t' mac now copy mem HH HKY HB HT HT' HM HM' HN TM TM' data data' HC HZ HD E. unfold client_check in E.
  destruct (c15_sound H k kn ka size kn 255 0 t' msg' mac 0 false now copy mem HH HKY (proj1 HKY) HT' HM' HN E) as (_ & _ & M). cbv zeta in M.
  assert (X : data = data') by (apply HC; unfold data, data'; congruence). unfold data, data', signed_data in X. apply app_inv_head in X.
  assert (L1 : zlen (with_id msg' (t_id t')) = zlen msg). { unfold with_id. destruct (id_split msg' HM') as (a & b & T & -> & _). cbn [skipn app]. rewrite zlen_app, zlen_num. rewrite <- HZ, zlen_app. reflexivity. }
  apply app_inj_len in X; [|lia]. destruct X as [X1 X2]. destruct HD as [HD|(HL & HD)]; [congruence|].
  unfold variables in X2. do 3 apply app_inv_head in X2. rewrite HL in X2. apply app_inv_head in X2.
  destruct HT as (_ & R1 & R2 & _ & _ & R3 & R4 & R5). destruct HT' as (_ & R1' & R2' & _ & _ & R3' & R4' & R5').
  apply app_inj_len in X2; [|rewrite !zlen_num; reflexivity]. destruct X2 as [Y1 X2]. apply app_inj_len in X2; [|rewrite !zlen_num; reflexivity]. destruct X2 as [Y2 X2].
  apply app_inj_len in X2; [|rewrite !zlen_num; reflexivity]. destruct X2 as [Y3 X2]. apply app_inj_len in X2; [|rewrite !zlen_num; reflexivity]. destruct X2 as [Y4 X2].
  apply (f_equal unbe) in Y1, Y2, Y3. rewrite !unbe_num in Y1, Y2, Y3 by (cbn; lia). destruct HD as [?|[?|[?|?]]]; congruence.
Qed.

(** A requestor which sent a request with the MAC [mac] is content with an answer only if it is authentic, whatever the memory, *)
Theorem c15_stream_sound : forall H k kn ka size mac evs,
  is_hmac H -> has_key k kn ka size -> zlen mac = size -> Forall (fun e => well_formed (fst e)) evs ->
  receive_all H (mkctx 0 mac 0 []) k (map as_received evs) = Ok KNOT_EOK ->
  authentic H kn (k_alg k) size (k_secret k) 0 mac [] (map fst evs).
Proof. intros H k kn ka size mac evs HH (HK & KN & HA) HM HW R. eapply (stream_sound H k kn ka size HH HK KN HA evs 0 mac []); auto; try constructor; cbn; lia. Qed.
(** and it is content with any authentic one if there is memory *)
Theorem c15_stream_complete : forall H k kn ka size mac evs,
  is_hmac H -> has_key k kn ka size -> zlen mac = size -> Forall (fun e => well_formed (fst e)) evs -> Forall (fun e => memory_ok (snd e)) evs ->
  authentic H kn (k_alg k) size (k_secret k) 0 mac [] (map fst evs) ->
  receive_all H (mkctx 0 mac 0 []) k (map as_received evs) = Ok KNOT_EOK.
Proof. intros H k kn ka size mac evs HH (HK & KN & HA) HM HW HMm R. eapply (stream_complete H k kn ka size HH HK KN HA evs 0 mac []); auto; try constructor; cbn; lia. Qed.

(** What the server signs is authentic: messages with space behind them, times of signing and of arrival *)
Record sent := mksent { n_msg : list Z; n_room : list Z; n_now : Z; n_arrival : Z }.
Fixpoint good_times (prev : Z) (l : list sent) : Prop :=
  match l with
  | [] => True
  | a :: l => prev <= n_now a /\ 0 < n_now a < 2 ^ 48 /\ Z.abs (n_arrival a - n_now a) <= 300 /\ good_times (n_now a) l
  end.
Definition record_size (kn ka : list label) (size : Z) : Z := name_size kn + 10 + name_size ka + 16 + size.
Definition sendable (kn ka : list label) (size : Z) (a : sent) : Prop :=
  bytes (n_msg a) /\ 12 <= zlen (n_msg a) <= 65535 /\ record_size kn ka size <= zlen (n_room a).
Lemma size_of_record : forall kn t, t_other t = [] -> zlen (tsig_record kn t) = record_size kn (t_alg t) (zlen (t_mac t)).
Proof. intros kn t E. unfold tsig_record, record_size. zl. rewrite tsig_len, E, zlen_nil. lia. Qed.
Lemma answer_chain : forall H k kn ka size, is_hmac H -> has_key k kn ka size -> forall l count digest prev,
  0 <= count -> (count = 0 <-> prev = 0) -> zlen digest = size -> Forall (sendable kn ka size) l -> good_times prev l ->
  exists ts, length ts = length l /\ Forall legal_tsig ts /\
    sign_all H count digest k (map (fun a => (n_msg a ++ n_room a, zlen (n_msg a), zlen (n_msg a ++ n_room a), n_now a)) l) plenty =
      Ok (map (fun '(a, t) => (with_record (n_msg a) (tsig_record kn t) ++ skipn (length (tsig_record kn t)) (n_room a), zlen (n_msg a) + zlen (tsig_record kn t))) (combine l ts)) /\
    authentic H kn (k_alg k) size (k_secret k) prev digest [] (map (fun '(a, t) => (n_msg a, Some (kn, 255, 0, t), n_arrival a)) (combine l ts)).
Proof.
  intros H k kn ka size HH HKY. pose proof HKY as (HK & KN & HA). induction l as [|a l IH]; intros count digest prev HC CP HD HS HG.
  - exists []. split; [reflexivity|]. split; [constructor|]. split; [reflexivity|constructor].
  - inversion HS as [|? ? (HB & HZ & HR) HS']; subst. destruct HG as (G1 & G2 & G3 & G4).
    assert (NA : forall t, t_alg t = ka -> names_algorithm (t_alg t) (k_alg k) (zlen digest)) by (intros t E; exists ka; split; [auto|rewrite E; eapply algorithm_facts; eauto]).
    cbn [map sign_all]. destruct (count =? 0) eqn:EC.
    + assert (prev = 0) by (apply CP; lia). subst prev.
      destruct (c15_sign H k kn ka (zlen digest) (n_msg a) (n_room a) (zlen (n_msg a ++ n_room a)) digest 0 0 (n_now a) HH HKY HB ltac:(lia) ltac:(lia) ltac:(lia) ltac:(lia)) as (t & HT & TA & TF & TI & T0 & _ & TM & E). destruct (T0 ltac:(lia)) as (TT & TE & TO).
      assert (LM : zlen (t_mac t) = zlen digest) by (rewrite TM; eapply (proj1 (HH _ _ _ _ _ HA))).
      cbv zeta in E. rewrite size_of_record in E by auto. rewrite TA, LM in E. replace (zlen (n_msg a) + record_size kn ka (zlen digest) <=? zlen (n_msg a ++ n_room a)) with true in E by (rewrite ?zlen_app; lia). rewrite E. cbn [rbind].
      destruct (IH (count + 1) (t_mac t) (n_now a)) as (ts & TL & LT & SA & AU); try lia; auto.
      exists (t :: ts). cbn [length combine map]. split; [lia|]. split; [constructor; auto|]. split.
      * rewrite SA. cbn [rbind]. rewrite size_of_record by auto. rewrite TA, LM. reflexivity.
      * apply answer_signed; auto.
        -- cbv zeta. cbn [concat app]. rewrite app_nil_r. rewrite TI. change (0 =? 0) with true. cbn iota.
           replace (with_id (n_msg a) (message_id (n_msg a))) with (n_msg a); [exact TM|]. pose proof (with_id_same (n_msg a) (message_id (n_msg a)) ltac:(lia) HB) as W. unfold with_id in W |- *. cbn [num app skipn] in W |- *. congruence.
        -- unfold timely. lia.
        -- rewrite TT. exact AU.
    + assert (prev <> 0) by (intros E; apply CP in E; lia).
      rewrite zfirstn_app_exact. assert (AS : alg_size (k_alg k) = zlen digest) by (unfold alg_size; destruct (algorithm_facts _ _ _ HA) as (_ & _ & -> & _); reflexivity). rewrite AS.
      destruct (c15_sign_next H k kn ka (zlen digest) (n_msg a) (n_room a) (zlen (n_msg a ++ n_room a)) digest (zlen digest) (n_now a) HH HKY HB ltac:(lia) ltac:(lia) ltac:(lia) ltac:(lia)) as (t & HT & TA & TF & TI & TT & TE & TO & TM & E).
      assert (LM : zlen (t_mac t) = zlen digest) by (rewrite TM; eapply (proj1 (HH _ _ _ _ _ HA))).
      cbv zeta in E. rewrite size_of_record in E by auto. rewrite TA, LM in E. replace (zlen (n_msg a) + record_size kn ka (zlen digest) <=? zlen (n_msg a ++ n_room a)) with true in E by (rewrite ?zlen_app; lia). rewrite E. cbn [rbind].
      destruct (IH (count + 1) (t_mac t) (n_now a)) as (ts & TL & LT & SA & AU); try lia; auto.
      exists (t :: ts). cbn [length combine map]. split; [lia|]. split; [constructor; auto|]. split.
      * rewrite SA. cbn [rbind]. rewrite size_of_record by auto. rewrite TA, LM. reflexivity.
      * apply answer_signed; auto.
        -- cbv zeta. cbn [concat app]. rewrite app_nil_r. rewrite TI. replace (prev =? 0) with false by lia.
           replace (with_id (n_msg a) (message_id (n_msg a))) with (n_msg a); [exact TM|]. pose proof (with_id_same (n_msg a) (message_id (n_msg a)) ltac:(lia) HB) as W. unfold with_id in W |- *. cbn [num app skipn] in W |- *. congruence.
        -- unfold timely. lia.
        -- rewrite TT. exact AU.
Qed.
(** All messages of an answer which are signed by the server, with the request's MAC, are accepted by the requestor as long as
    they arrive in time; the buffers have enough space. *)
Theorem c15_answer : forall H k kn ka size mac l,
  is_hmac H -> has_key k kn ka size -> zlen mac = size -> Forall (sendable kn ka size) l -> good_times 0 l ->
  exists ts, length ts = length l /\ Forall legal_tsig ts /\
    sign_all H 0 mac k (map (fun a => (n_msg a ++ n_room a, zlen (n_msg a), zlen (n_msg a ++ n_room a), n_now a)) l) plenty =
      Ok (map (fun '(a, t) => (with_record (n_msg a) (tsig_record kn t) ++ skipn (length (tsig_record kn t)) (n_room a), zlen (n_msg a) + zlen (tsig_record kn t))) (combine l ts)) /\
    receive_all H (mkctx 0 mac 0 []) k (map (fun '(a, t) => mkrecv (n_msg a) (Some (parsed kn 255 0 t)) (n_arrival a) true true plenty) (combine l ts)) = Ok KNOT_EOK.
Proof.
  intros H k kn ka size mac l HH HKY HM HS HG. destruct (answer_chain H k kn ka size HH HKY l 0 mac 0 ltac:(lia) ltac:(lia) HM HS HG) as (ts & TL & LT & SA & AU).
  exists ts. split; [auto|]. split; [auto|]. split; [exact SA|].
  set (evs := map (fun '(a, t) => ((n_msg a, Some (kn, 255, 0, t), n_arrival a), (true, true, plenty))) (combine l ts) : list (arrived * (bool * bool * memory))).
  pose proof (c15_stream_complete H k kn ka size mac evs HH HKY HM) as SC.
  assert (E1 : map fst evs = map (fun '(a, t) => (n_msg a, Some (kn, 255, 0, t), n_arrival a)) (combine l ts)) by (unfold evs; rewrite map_map; apply map_ext; intros []; reflexivity).
  assert (E2 : map as_received evs = map (fun '(a, t) => mkrecv (n_msg a) (Some (parsed kn 255 0 t)) (n_arrival a) true true plenty) (combine l ts)) by (unfold evs; rewrite map_map; apply map_ext; intros []; reflexivity).
  rewrite E1, E2 in SC. apply SC; auto.
  - rewrite Forall_forall in *. intros e HI. apply in_map_iff in HI as ([a t] & <- & HI). cbn [fst well_formed]. destruct (HS a (in_combine_l _ _ _ _ HI)) as (_ & HZ & _). split; [auto|]. split; [apply HKY|]. apply LT. apply (in_combine_r _ _ _ _ HI).
  - rewrite Forall_forall. intros e HI. apply in_map_iff in HI as ([a t] & <- & HI). cbn. auto.
Qed.

(** The context of a requestor: a request is signed, and then answers to it are expected *)
Theorem c15_request : forall H k kn ka size msg room max now,
  is_hmac H -> has_key k kn ka size -> bytes msg -> 12 <= zlen msg -> max <= zlen (msg ++ room) -> 0 <= now < 2 ^ 48 ->
  zlen msg + record_size kn ka size <= max ->
  exists t, legal_tsig t /\ t_time t = now /\ t_mac t = H (k_alg k) (k_secret k) (signed_data [] msg kn 255 0 t) /\ zlen (t_mac t) = size /\
    let rec := tsig_record kn t in
    sign_packet H ctx_init k (msg ++ room) (zlen msg) max now plenty =
      Ok (with_record msg rec ++ skipn (length rec) room, zlen msg + zlen rec, mkctx 0 (t_mac t) 0 []).
Proof.
  intros H k kn ka size msg room max now HH HKY HB HM Hmax Hn HF. destruct (c15_sign H k kn ka size msg room max [] 0 0 now HH HKY HB HM Hmax ltac:(lia) Hn) as (t & HT & TA & TF & TI & T0 & _ & TM & E). destruct (T0 ltac:(lia)) as (TT & TE & TO).
  assert (LM : zlen (t_mac t) = size) by (rewrite TM; eapply (proj1 (HH _ _ _ _ _ (proj2 (proj2 HKY))))).
  exists t. split; [auto|]. split; [auto|]. split; [auto|]. split; [auto|]. cbv zeta in *. unfold sign_packet. cbn [ctx_init x_digest x_prev x_unsigned x_buffer]. change (zlen (@nil Z) =? 0) with true. cbn iota.
  rewrite E. replace (_ <=? max) with true by (rewrite size_of_record, TA, LM by auto; lia). reflexivity.
Qed.

(** ** Examples: a function with the sizes of HMAC, and a request *)
Definition toy (id : Z) (secret data : list Z) : list Z :=
  let h := fold_left (fun a b => (a * 31 + b) mod 65521) (secret ++ data) 7 in
  map (fun i => (h + h / 256 + Z.of_nat i) mod 256) (seq 0 (Z.to_nat (alg_size id))).
Lemma toy_hmac : is_hmac toy.
Proof.
  intros id n s secret data A. unfold toy. split.
  - unfold zlen. rewrite map_length, seq_length. destruct A; reflexivity.
  - apply Forall_forall. intros x HX. apply in_map_iff in HX as (i & <- & _). unfold byte. pose proof (Z.mod_pos_bound (fold_left (fun a b => (a * 31 + b) mod 65521) (secret ++ data) 7 + fold_left (fun a b => (a * 31 + b) mod 65521) (secret ++ data) 7 / 256 + Z.of_nat i) 256). lia.
Qed.
Definition ex_kn : list label := [[107]].
Definition ex_key : key := mkkey [1; 107; 0] 4 [1; 2; 3].
Lemma ex_has_key : has_key ex_key ex_kn hmac_sha256 32.
Proof. split; [|split; [reflexivity|constructor]]. split; [repeat constructor; unfold byte; cbn; lia|vm_compute; discriminate]. Qed.
(** header with one question, "a." SOA IN *)
Definition ex_msg : list Z := [18; 52; 0; 0; 0; 1; 0; 0; 0; 0; 0; 0; 1; 97; 0; 0; 6; 0; 1].
Lemma ex_msg_bytes : bytes ex_msg.
Proof. repeat constructor; unfold byte; lia. Qed.
Example c15_ex_window :
  exists out len digest t, tsig_sign toy (ex_msg ++ zeros 200) (zlen ex_msg) 219 [] ex_key 0 0 1000000 plenty = Ok (out, len, digest) /\
    zlen digest = 32 /\ len = 19 + 74 /\ firstn (Z.to_nat len) out = with_record ex_msg (tsig_record ex_kn t) /\
    server_check toy (Some (parsed ex_kn 255 0 t)) ex_msg ex_key 1000300 true plenty = Ok KNOT_EOK /\
    server_check toy (Some (parsed ex_kn 255 0 t)) ex_msg ex_key 1000301 true plenty = Ok KNOT_TSIG_EBADTIME /\
    server_check toy (Some (parsed ex_kn 255 0 t)) ex_msg ex_key 999699 true plenty = Ok KNOT_TSIG_EBADTIME /\
    server_check toy (Some (parsed ex_kn 255 0 t)) (ex_msg ++ [0]) ex_key 1000000 true plenty = Ok KNOT_TSIG_EBADSIG /\
    server_check toy (Some (parsed [] 255 0 t)) ex_msg ex_key 1000000 true plenty = Ok KNOT_TSIG_EBADKEY.
Proof.
  do 3 eexists. exists (with_mac (unsigned hmac_sha256 ex_msg 1000000 0 0) (toy 4 [1; 2; 3] (signed_data [] ex_msg ex_kn 255 0 (unsigned hmac_sha256 ex_msg 1000000 0 0)))).
  split; [vm_compute; reflexivity|]. repeat split; vm_compute; reflexivity.
Qed.
Definition ex_answer : list sent :=
  [mksent (ex_msg ++ [1]) (zeros 100) 1000000 1000010; mksent (ex_msg ++ [2; 2]) (zeros 74) 1000000 1000300; mksent (ex_msg ++ [3]) (zeros 80) 1000005 999800].
Example c15_ex_answer : Forall (sendable ex_kn hmac_sha256 32) ex_answer /\ good_times 0 ex_answer.
Proof.
  split; [|cbn; lia]. repeat apply Forall_cons; [| | |constructor]; (split; [apply bytes_app; split; [apply ex_msg_bytes|repeat constructor; unfold byte; lia]|]); (split; [split; vm_compute; discriminate|vm_compute; discriminate]).
Qed.
(** two unsigned messages between signed ones *)
Example c15_ex_unsigned :
  let t1 := with_mac (unsigned hmac_sha256 ex_msg 1000000 0 0) (toy 4 [1; 2; 3] (signed_data (zeros 32) ex_msg ex_kn 255 0 (unsigned hmac_sha256 ex_msg 1000000 0 0))) in
  let t2 := with_mac (unsigned hmac_sha256 ex_msg 1000001 0 0) (toy 4 [1; 2; 3] (signed_next (t_mac t1) (ex_msg ++ ex_msg ++ ex_msg) (unsigned hmac_sha256 ex_msg 1000001 0 0))) in
  let recv s := mkrecv ex_msg (option_map (parsed ex_kn 255 0) s) 1000002 true true plenty in
  receive_all toy (mkctx 0 (zeros 32) 0 []) ex_key [recv (Some t1); recv None; recv None; recv (Some t2)] = Ok KNOT_EOK /\
  receive_all toy (mkctx 0 (zeros 32) 0 []) ex_key [recv (Some t1); recv None; recv (Some t2)] = Ok KNOT_TSIG_EBADSIG /\
  receive_all toy (mkctx 0 (zeros 32) 0 []) ex_key [recv (Some t1); recv None] = Ok KNOT_TSIG_EBADSIG.
Proof. cbv zeta. repeat split; vm_compute; reflexivity. Qed.

(** ** What does not hold *)
(** The algorithm of the record need not be the one of the key: with HMAC-MD5 in the record, only 16 of the 32 octets of the
    HMAC-SHA256 are compared. *)
Theorem c15_algorithm_refuted : forall H, is_hmac H ->
  exists k t msg now, has_key k ex_kn hmac_sha256 32 /\ legal_tsig t /\ zlen (t_mac t) = 16 /\
    server_check H (Some (parsed ex_kn 255 0 t)) msg k now true plenty = Ok KNOT_EOK.
Proof.
  intros H HH. set (u := unsigned hmac_md5 ex_msg 1000000 0 0). set (d := H 4 [1; 2; 3] (signed_data [] ex_msg ex_kn 255 0 u)).
  assert (D : zlen d = 32 /\ bytes d) by (apply (HH _ _ _ _ _ is_sha256)). destruct D as [D1 D2].
  exists ex_key, (with_mac u (zfirstn 16 d)), ex_msg, 1000000. assert (L16 : zlen (zfirstn 16 d) = 16) by (apply zlen_zfirstn; lia).
  assert (B16 : bytes (zfirstn 16 d)) by (rewrite <- (zfirstn_skipn _ d 16) in D2; apply bytes_app in D2; apply D2).
  assert (LT : legal_tsig (with_mac u (zfirstn 16 d))).
  { apply (legal_with hmac_md5 1000000 300 (zfirstn 16 d) (message_id ex_msg) 0 []); [destruct (algorithm_facts _ _ _ is_md5) as (X & _); exact X|lia|lia|exact B16|change (message_id ex_msg) with 4660; lia|lia|apply (Forall_nil byte)|lia|rewrite zlen_nil; lia]. }
  split; [exact ex_has_key|]. split; [exact LT|]. split; [exact L16|]. unfold server_check.
  destruct (c15_check_partial H ex_key ex_kn hmac_sha256 32 ex_kn 255 0 (with_mac u (zfirstn 16 d)) ex_msg [] 0 false 1000000 HH ex_has_key (proj1 ex_has_key) LT) as (r & E & O).
  - vm_compute. discriminate.
  - intros i s (n & A & E). cbn in E. subst n. inversion A. lia.
  - rewrite E. f_equal. cbv zeta in O. eapply outcome_det; [exact O|]. eapply good with (i := 1) (s := 16); [exists hmac_md5; split; [constructor|reflexivity]|reflexivity|exact is_sha256| |unfold timely; cbn; lia].
    split; [exact L16|]. reflexivity.
Qed.
(** With a longer MAC in the record than the algorithm of the key has, octets which were never written are compared. *)
Theorem c15_defined_refuted : forall H, is_hmac H ->
  exists k t msg now, has_key k ex_kn hmac_sha256 32 /\ legal_tsig t /\
    server_check H (Some (parsed ex_kn 255 0 t)) msg k now true plenty = UB.
Proof.
  intros H HH. set (t := with_mac (unsigned hmac_sha512 ex_msg 1000000 0 0) (zeros 64)). exists ex_key, t, ex_msg, 1000000. split; [exact ex_has_key|].
  assert (LT : legal_tsig t) by (apply (legal_with hmac_sha512 1000000 300 (zeros 64) (message_id ex_msg) 0 []); [destruct (algorithm_facts _ _ _ is_sha512) as (X & _); exact X|lia|lia|apply zeros_bytes|change (message_id ex_msg) with 4660; lia|lia|apply (Forall_nil byte)|rewrite zlen_zeros; lia|rewrite zlen_nil; lia]).
  split; [exact LT|]. destruct (check_spec H ex_kn 250 255 0 t ex_msg [] ex_key ex_kn 0 false 1000000 true plenty HH (proj1 ex_has_key) (proj1 ex_has_key) eq_refl LT) as [[E _]|(r & E & O)]; [vm_compute; discriminate|exact E|].
  exfalso. specialize (O (or_introl (conj eq_refl (conj eq_refl eq_refl)))).
  assert (NA : names_algorithm (t_alg t) 6 64) by (exists hmac_sha512; split; [constructor|reflexivity]).
  unfold check_digest in E. unfold parsed in E.
  revert E. cbn [rr_rdata]. 
  replace (check_algorithm (mkrr (dwire ex_kn) 250 255 0 (tsig_bytes t))) with (Ok KNOT_EOK) by (vm_compute; reflexivity).
  replace (check_key (mkrr (dwire ex_kn) 250 255 0 (tsig_bytes t)) ex_key) with (Ok KNOT_EOK) by (vm_compute; reflexivity).
  replace (rd_orig_id (tsig_bytes t)) with (Ok 4660) by (vm_compute; reflexivity).
  replace (alg_from_dname (tsig_bytes t)) with (Ok 6) by (vm_compute; reflexivity).
  replace (rd_mac_length (tsig_bytes t)) with (Ok 64) by (vm_compute; reflexivity).
  destruct (get_mac t LT) as [G1 G2]. change (zlen (t_mac t)) with 64 in G2. rewrite G1. cbn [rbind]. change (negb (KNOT_EOK =? KNOT_EOK)) with false. cbn [rbind negb].
  rewrite (set_id ex_msg 4660) by (vm_compute; try split; congruence). cbn [rbind]. rewrite create_sign_wire_spec by (first [apply ex_has_key|exact LT]). rewrite digest_known. cbn [plenty a_ctx andb]. replace (known (k_alg ex_key)) with true by reflexivity.
  change (negb (64 =? alg_size 6)) with false. cbn iota. rewrite G2. cbn [rbind]. rewrite (proj1 (HH _ _ _ _ _ is_sha256)). change (64 >? 32) with true. discriminate.
Qed.
(** If there is no memory for the RDATA, the following messages are "signed" without an error: a record is counted in the header,
    but it is not there. *)
Theorem c15_sign_next_refuted : exists H k msg prev now mem out digest, is_hmac H /\ has_key k ex_kn hmac_sha256 32 /\ bytes msg /\ zlen prev = 32 /\
  tsig_sign_next H (msg ++ zeros 200) (zlen msg) 219 prev 32 k msg now mem = Ok (out, zlen msg, digest) /\ octet out 11 = octet msg 11 + 1.
Proof.
  exists toy, ex_key, ex_msg, (zeros 32), 1000000, (mkmem true false true true). do 2 eexists. split; [exact toy_hmac|]. split; [exact ex_has_key|]. split; [exact ex_msg_bytes|]. split; [reflexivity|]. split; vm_compute; reflexivity.
Qed.

Print Assumptions c15_check_partial. Print Assumptions c15_outcome_unique. Print Assumptions c15_sound_partial. Print Assumptions c15_sound.
Print Assumptions c15_sign. Print Assumptions c15_sign_next. Print Assumptions c15_window. Print Assumptions c15_tamper.
Print Assumptions c15_stream_sound. Print Assumptions c15_stream_complete. Print Assumptions c15_answer. Print Assumptions c15_request.
Print Assumptions c15_algorithm_refuted. Print Assumptions c15_defined_refuted. Print Assumptions c15_sign_next_refuted.
