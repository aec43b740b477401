From Verif Require Import Base DnameModel DnameSpec DnameProofs DnameProofs2 WireModel WireProofs RrwireModel RrwireProofs RrwireProofs2 ComprModel ComprProofs ComprProofs2 PutModel PutProofs PktparseModel PktparseProofs AclModel TsigModel TsigSpec TsigProofs TsigProofs2 TsigProofs3 TsigProofs4.

(** ** Checking *)
Lemma time_spec : forall t prev now, legal_tsig t -> exists r, check_time_signed (tsig_bytes t) prev now = Ok r /\ ((r = KNOT_EOK /\ timely t prev now) \/ (r = KNOT_TSIG_EBADTIME /\ ~ timely t prev now)).
Proof.
  intros t prev now HT. unfold check_time_signed. rewrite get_time by auto. cbn [rbind]. rewrite get_fudge by auto. cbn [rbind]. unfold timely. pose proof HT as (_ & H1 & H2 & _).
  destruct (t_time t =? 0) eqn:E1; [eexists; split; [reflexivity|]; right; split; [auto|lia]|].
  destruct (t_fudge t =? 0) eqn:E2; [eexists; split; [reflexivity|]; right; split; [auto|lia]|].
  destruct (_ || _) eqn:E3; [eexists; split; [reflexivity|]; right; split; [auto|lia]|].
  destruct (_ <? 0) eqn:E4; (eexists; split; [reflexivity|]); [right|left]; split; auto; lia.
Qed.
Definition known (id : Z) : bool := match alg_find id algorithms with None => false | _ => true end.
Lemma known_spec : forall id, known id = true -> exists n s, algorithm id n s.
Proof.
  intros id. unfold known, algorithms. cbn [alg_find].
  repeat match goal with |- context [?a =? id] => destruct (Z.eqb_spec a id); [intros _; subst id; do 2 eexists; constructor|] end. discriminate.
Qed.
Lemma known_algorithm : forall id n s, algorithm id n s -> known id = true.
Proof. intros id n s H. destruct H; reflexivity. Qed.
Lemma digest_known : forall H w k al, compute_digest H w k al = if al && known (k_alg k) then Ok (H (k_alg k) (k_secret k) w) else Err KNOT_TSIG_EBADSIG.
Proof. intros. unfold compute_digest, known. destruct (alg_find (k_alg k) algorithms), al; reflexivity. Qed.
Lemma bytes_eqb_case : forall a b, {a = b /\ bytes_eqb a b = true} + {a <> b /\ bytes_eqb a b = false}.
Proof. intros. destruct (bytes_eqb a b) eqn:E; [left|right]; split; auto; [apply bytes_eqb_spec|apply bytes_eqb_false]; auto. Qed.

Definition data_of (next : bool) (mac msg : list Z) (owner : list label) (class ttl : Z) (t : tsig) : list Z :=
  if next then signed_next mac (with_id msg (t_id t)) t else signed_data mac (with_id msg (t_id t)) owner class ttl t.
Lemma check_spec : forall H owner ty cl ttl t msg mac k kn prev next now al0 al, is_hmac H -> legal_name owner -> legal_name kn -> k_name k = dwire kn -> legal_tsig t -> 2 <= zlen msg ->
  (check_digest H (Some (mkrr (dwire owner) ty cl ttl (tsig_bytes t))) msg mac k prev next now al0 al = UB /\ exists i s n s', names_algorithm (t_alg t) i s /\ algorithm (k_alg k) n s' /\ s' < s) \/
  exists r, check_digest H (Some (mkrr (dwire owner) ty cl ttl (tsig_bytes t))) msg mac k prev next now al0 al = Ok r /\
    ((al0 = true /\ a_wire al = true /\ a_ctx al = true) \/ r = KNOT_EOK -> outcome H kn (k_alg k) (k_secret k) owner (data_of next mac msg owner cl ttl t) t prev now r).
Proof.
  intros H owner ty cl ttl t msg mac k kn prev next now al0 al HH HO HK KN HT HM.
  pose proof HT as (HA & _ & _ & _ & HI & _). pose proof (tsig_len t). pose proof (name_size_ge1 (t_alg t)). pose proof (zlen_nonneg (t_other t)). pose proof (zlen_nonneg (t_mac t)).
  unfold check_digest. cbn [rr_rdata]. unfold check_algorithm. cbn [rr_rdata]. replace (zlen (tsig_bytes t) =? 0) with false by lia.
  destruct (tsig_alg t) as [j EJ]. destruct (alg_from_spec (t_alg t) j HA) as (id & AF & CASE). rewrite <- EJ in AF. rewrite AF. cbn [rbind].
  destruct CASE as [[-> NO]|[NZ YES]].
  { change (0 =? 0) with true. cbn iota. change (negb (KNOT_TSIG_EBADKEY =? KNOT_EOK)) with true. cbn iota. right. eexists. split; [reflexivity|]. intros _. apply unknown_algorithm. exact NO. }
  replace (id =? 0) with false by lia. cbn [negb]. change (negb (KNOT_EOK =? KNOT_EOK)) with false. cbn iota.
  unfold check_key. cbn [rr_owner]. rewrite KN. destruct (dname_is_equal_spec owner kn [] [] (proj1 HO) (proj1 HK)) as (e & DE & EI). rewrite !app_nil_r in DE. rewrite DE. cbn [rbind].
  destruct e.
  2: { change (negb (KNOT_TSIG_EBADKEY =? KNOT_EOK)) with true. cbn iota. right. eexists. split; [reflexivity|]. intros _. apply other_key. intros E. apply EI in E. discriminate. }
  change (negb (KNOT_EOK =? KNOT_EOK)) with false. cbn iota. assert (OK : owner = kn) by (apply EI; auto).
  destruct al0; cbn [negb].
  2: { right. eexists. split; [reflexivity|]. intros [(? & _)|?]; discriminate. }
  rewrite get_id by auto. cbn [rbind]. rewrite set_id by auto. cbn [rbind].
  assert (WD : (if next then create_sign_wire_next H (with_id msg (t_id t)) mac (tsig_bytes t) k (a_wire al) (a_ctx al) else create_sign_wire H (with_id msg (t_id t)) mac (mkrr (dwire owner) ty cl ttl (tsig_bytes t)) k (a_wire al) (a_ctx al)) =
    if a_wire al then (if a_ctx al && known (k_alg k) then Ok (H (k_alg k) (k_secret k) (data_of next mac msg owner cl ttl t)) else Err KNOT_TSIG_EBADSIG) else Err KNOT_ENOMEM).
  { unfold data_of. destruct (a_wire al).
    - destruct next.
      + rewrite <- (app_nil_r (tsig_bytes t)). rewrite create_sign_wire_next_spec by (first [apply legal_laid; exact HT|apply HT]). apply digest_known.
      + rewrite create_sign_wire_spec by auto. apply digest_known.
    - destruct next; [reflexivity|]. unfold create_sign_wire. rewrite variables_length_spec by auto. reflexivity. }
  rewrite WD. destruct (a_wire al) eqn:EW.
  2: { right. eexists. split; [reflexivity|]. intros [(_ & ? & _)|?]; discriminate. }
  destruct (a_ctx al) eqn:EC.
  2: { right. eexists. split; [reflexivity|]. intros [(_ & _ & ?)|?]; discriminate. }
  cbn [andb]. destruct (known (k_alg k)) eqn:EK.
  2: { right. eexists. split; [reflexivity|]. intros _. eapply unusable_key; eauto. intros n s A. apply known_algorithm in A. congruence. }
  destruct (known_spec _ EK) as (n & s' & KA). destruct (HH _ _ _ (k_secret k) (data_of next mac msg owner cl ttl t) KA) as [HD1 HD2]. set (digest := H (k_alg k) (k_secret k) (data_of next mac msg owner cl ttl t)) in *.
  rewrite get_maclen by auto. cbn [rbind]. destruct (get_mac t HT) as [GM1 GM2]. rewrite GM1. cbn [rbind].
  assert (SZ : 16 <= alg_size id) by (destruct YES as (nn & A & _); apply algorithm_facts in A; lia).
  destruct (zlen (t_mac t) =? alg_size id) eqn:EL; cbn [negb].
  2: { right. eexists. split; [reflexivity|]. intros _. eapply wrong_mac; eauto. intros [E _]. lia. }
  rewrite GM2. cbn [rbind]. destruct (zlen (t_mac t) >? zlen digest) eqn:EG. { left. split; [reflexivity|]. exists id, (alg_size id), n, s'. split; [exact YES|]. split; [exact KA|]. lia. } assert (EL2 : zlen (t_mac t) = alg_size id) by lia. rewrite EL2. right.
  destruct (bytes_eqb_case (t_mac t) (zfirstn (alg_size id) digest)) as [[EM EB]|[EM EB]]; rewrite EB; cbn [negb].
  - destruct (time_spec t prev now HT) as (r & -> & [[-> T]|[-> T]]); eexists; (split; [reflexivity|]); intros _; [eapply good; eauto; split; auto|eapply wrong_time; eauto; split; auto].
  - eexists. split; [reflexivity|]. intros _. eapply wrong_mac; eauto. intros [_ E]. apply EM; exact E.
Qed.
Lemma outcome_det : forall H kn ka sec o d t p n r r', outcome H kn ka sec o d t p n r -> outcome H kn ka sec o d t p n r' -> r = r'.
Proof.
  intros H kn ka sec o d t p n r r' X Y.
  destruct X; destruct Y; try reflexivity; try congruence; exfalso;
   try (match goal with A : forall _ _, ~ names_algorithm _ _ _, B : names_algorithm _ _ _ |- _ => exact (A _ _ B) end);
   try (match goal with A : forall _ _, ~ algorithm _ _ _, B : algorithm _ _ _ |- _ => exact (A _ _ B) end);
   try (match goal with A : names_algorithm _ ?i _, B : names_algorithm _ ?j _ |- _ => destruct (names_unique _ _ _ _ _ A B); subst; tauto end).
Qed.
