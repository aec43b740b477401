From Verif Require Import Base WireModel WireProofs WireProps DnameModel DnameSpec DnameProofs DnameProofs2 DnameProofs4 LmdbModel LmdbProofs LmdbProofs2 LmdbProps KeyModel SerialModel KaspModel KaspSpec KaspProofs.
From Coq Require Import Sorting.Sorted.

(** Parameters of a key are stored and read back. *)
Lemma flags_range : forall p, 0 <= kp_flags p < 2 ^ 8.
Proof. intros p. unfold kp_flags. destruct (kp_ksk p), (kp_pub_only p), (kp_csk p); vm_compute; split; congruence. Qed.
Lemma flags_bits : forall p, negb (Z.land (kp_flags p) 1 =? 0) = kp_ksk p /\ negb (Z.land (kp_flags p) 2 =? 0) = true /\ negb (Z.land (kp_flags p) 4 =? 0) = kp_pub_only p /\ negb (Z.land (kp_flags p) 8 =? 0) = kp_csk p.
Proof. intros p. unfold kp_flags. destruct (kp_ksk p), (kp_pub_only p), (kp_csk p); vm_compute; auto. Qed.
Lemma pargs_ok : forall p, params_ok p -> Forall karg_ok (pargs p).
Proof.
  intros p (_ & T & A & B & K & _ & H1 & H2 & H3 & H4 & H5 & H6 & H7 & H8 & H9 & _). unfold pargs. repeat (apply Forall_cons; [|]); [..|apply Forall_nil]; cbn [karg_ok]; try assumption; try apply flags_range; try lia.
  split; [assumption|]. intros E. rewrite E in K. change (zlen []) with 0 in K. lia.
Qed.
Lemma pargs_len : forall p, zlen (encs (pargs p)) = 92 + zlen (kp_public p).
Proof. intros p. unfold pargs, encs. cbn [map concat enc]. rewrite !zlen_app, !be_length. change (zlen []) with 0. lia. Qed.
Lemma encs_app : forall a b, encs (a ++ b) = encs a ++ encs b.
Proof. intros. unfold encs. rewrite map_app, concat_app. reflexivity. Qed.
Lemma serialize_ok : forall p, params_ok p -> params_serialize p = Ok (penc p).
Proof.
  intros p H. unfold params_serialize. change (made (make_key true 0 (pargs p ++ [KL (kt_revoke p)])) = Ok (penc p)).
  assert (E : encs (pargs p ++ [KL (kt_revoke p)]) = penc p) by (rewrite encs_app; unfold encs at 2; cbn [map concat enc]; rewrite app_nil_r; reflexivity).
  rewrite made_ok; [rewrite E; reflexivity|discriminate| |].
  - apply Forall_app. split; [apply pargs_ok; exact H|]. constructor; [|constructor]. cbn [karg_ok]. unfold params_ok, u64_ok in H. tauto.
  - rewrite E. unfold penc. rewrite zlen_app, pargs_len, be_length. destruct H as (_ & _ & _ & _ & K & _). change (2 ^ 63) with 9223372036854775808. lia.
Qed.
Definition no_id (p : kparams) : kparams := set_id p [].
Lemma be8_unbe : forall v, u64_ok v -> unbe (be 8 v) = v.
Proof. intros v H. rewrite unbe_be, Z.mod_small; [reflexivity|]. change (256 ^ Z.of_nat 8) with (2 ^ 64). exact H. Qed.
Lemma deserialize_ok : forall p, params_ok p -> params_deserialize (penc p) = Ok (Some (no_id p)).
Proof.
  intros p H. unfold params_deserialize. assert (L : zlen (penc p) = 100 + zlen (kp_public p)) by (unfold penc; rewrite zlen_app, pargs_len, be_length; lia).
  pose proof H as (_ & _ & _ & _ & K & Hc & _). assert (zlen (penc p) <? 16 = false) as -> by lia.
  assert (E1 : unbe (zfirstn 8 (penc p)) = zlen (kp_public p)).
  { assert (E : penc p = be 8 (zlen (kp_public p)) ++ (encs (tl (pargs p)) ++ be 8 (kt_revoke p))) by (unfold penc, pargs, encs; cbn [map concat enc tl]; rewrite <- !app_assoc; reflexivity).
    rewrite E. pose proof (zfirstn_app_exact (be 8 (zlen (kp_public p))) (encs (tl (pargs p)) ++ be 8 (kt_revoke p))) as F. rewrite be_length in F. change (Z.of_nat 8) with 8 in F. rewrite F. apply be8_unbe. unfold u64_ok. lia. }
  assert (E2 : unbe (zfirstn 8 (zskipn 8 (penc p))) = 8).
  { assert (E : penc p = be 8 (zlen (kp_public p)) ++ (be 8 8 ++ (encs (tl (tl (pargs p))) ++ be 8 (kt_revoke p)))) by (unfold penc, pargs, encs; cbn [map concat enc tl]; rewrite <- !app_assoc; reflexivity).
    rewrite E. pose proof (zskipn_app_exact (be 8 (zlen (kp_public p))) (be 8 8 ++ (encs (tl (tl (pargs p))) ++ be 8 (kt_revoke p)))) as F. rewrite be_length in F. change (Z.of_nat 8) with 8 in F. rewrite F.
    pose proof (zfirstn_app_exact (be 8 8) (encs (tl (tl (pargs p))) ++ be 8 (kt_revoke p))) as G. rewrite be_length in G. change (Z.of_nat 8) with 8 in G. rewrite G. apply be8_unbe. unfold u64_ok. lia. }
  rewrite E1, E2. assert (Hs : w64 (zlen (penc p) - 8) = zlen (encs (pargs p))) by (rewrite L, pargs_len; unfold w64; rewrite Z.mod_small; lia). rewrite Hs.
  cbv zeta. assert (zlen (encs (pargs p)) >? zlen (penc p) = false) as -> by (rewrite L, pargs_len; lia).
  assert (F : zfirstn (zlen (encs (pargs p))) (penc p) = encs (pargs p)) by apply zfirstn_app_exact. rewrite F.
  pose proof (c53_key_round_trip (pargs p) ltac:(discriminate) (pargs_ok p H) ltac:(rewrite pargs_len; change (2 ^ 63) with 9223372036854775808; lia)) as R.
  cbn [pargs map fmt vals] in R. unfold pargs in R at 1. fold (pargs p) in R.
  match goal with |- context [unmake_key (Some ?d) ?f] => change (unmake_key (Some d) f) with (unmake_key (Some (encs (pargs p))) f) end. rewrite R. cbn [rbind negb].
  change ((8 >? 0) && (8 <? 8)) with false. cbv iota. change (8 >? 0) with true. cbv iota.
  assert (M : mem_read (penc p) (zlen (penc p) - 8) 8 = Ok (be 8 (kt_revoke p))).
  { unfold mem_read. assert ((0 <=? zlen (penc p) - 8) && (0 <=? 8) && (zlen (penc p) - 8 + 8 <=? zlen (penc p)) = true) as -> by lia. f_equal.
    replace (zlen (penc p) - 8) with (zlen (encs (pargs p))) by (rewrite L, pargs_len; lia). unfold penc. rewrite zskipn_app_exact. pose proof (zfirstn_app_exact (be 8 (kt_revoke p)) []) as G. rewrite app_nil_r, be_length in G. exact G. }
  rewrite M. cbn [rbind]. destruct (flags_bits p) as (B1 & B2 & B3 & B4). rewrite B1, B2, B3, B4. rewrite be8_unbe by (unfold params_ok in H; tauto).
  assert (true && (kp_ksk p || negb (kp_csk p)) = true) as -> by (destruct (kp_csk p); [rewrite Hc by reflexivity; reflexivity|destruct (kp_ksk p); reflexivity]). reflexivity.
Qed.
Lemma pair_ok : forall z p, zone_ok z -> params_ok p -> pair2params (kenc (SubKey z (kp_id p))) (venc (IsKey p)) = Ok (Some p).
Proof.
  intros z p Hz Hp. unfold pair2params. cbn [venc]. rewrite deserialize_ok by exact Hp. cbn [rbind]. rewrite unmake_str; [|exact Hz|apply Hp]. cbn [rbind]. destruct p. reflexivity.
Qed.

(** Steps of a transaction: it is live with some data, or it has failed *)
Definition live (t : txn) (d : db) (rw : bool) (io0 : list Z) : Prop := ready t /\ t_data t = d /\ t_rw t = rw /\ io_sane (t_io t) /\ (io0 = [] -> t_io t = []).
Definition dead (t : txn) (io0 : list Z) : Prop := t_ret t <> KNOT_EOK /\ io0 <> [].
Lemma begin_step : forall d rw io, io_sane io -> live (lmdb_begin d rw io) d rw io \/ dead (lmdb_begin d rw io) io.
Proof.
  intros d rw io S. unfold lmdb_begin. destruct (io_next io) as [e io'] eqn:E. destruct (io_next_sane _ _ _ S E) as (S' & _ & _ & _ & N). destruct (e =? 0) eqn:E0.
  - left. split; [split; reflexivity|]. split; [reflexivity|]. split; [reflexivity|]. split; [exact S'|]. intros H. apply N in H. tauto.
  - right. split; [intros C; cbn [t_ret] in C; apply (proj1 (err_to_knot_0 e)) in C; lia|]. intros H. apply N in H. destruct H. lia.
Qed.
Lemma insert_step : forall t d io k v, live t d true io -> 0 < zlen k <= LMDB_MAXKEY -> let t' := snd (lmdb_insert t (Some k) v) in live t' (db_put d k v) true io \/ dead t' io.
Proof.
  intros t d io k v (R & D & W & S & N) Hk. cbv zeta. pose proof (insert_ok t k v R S Hk) as H. cbv zeta in H. destruct H as [(A & B & C & E & F)|(A & B)].
  - left. split; [exact A|]. split; [congruence|]. split; [congruence|]. split; [exact E|]. auto.
  - right. split; [exact A|]. intros H. apply B. auto.
Qed.
Lemma insert_failed : forall t io k v, dead t io -> dead (snd (lmdb_insert t k v)) io.
Proof. intros t io k v (A & B). rewrite insert_dead by exact A. cbn [snd]. split; [rewrite abort_ret; exact A|exact B]. Qed.
Lemma commit_step : forall t d0 d io, live t d true io -> exists t', lmdb_commit d0 t = (if t_ret t' =? KNOT_EOK then d else d0, t') /\ (io = [] -> t_ret t' = KNOT_EOK).
Proof.
  intros t d0 d io (R & D & W & S & N). unfold lmdb_commit. rewrite semcheck_ready by exact R. cbn [negb set_cur t_io]. destruct (io_next (t_io t)) as [e io'] eqn:E. destruct (io_next_sane _ _ _ S E) as (_ & _ & _ & _ & Z0).
  exists (set_opened (set_ret (set_io (set_cur t CNull) io') (err_to_knot e)) false). cbn [set_opened set_ret set_io set_cur t_rw t_ret t_data]. pose proof (err_to_knot_0 e) as K. split.
  - rewrite W, D. assert ((err_to_knot e =? KNOT_EOK) = (e =? 0) && true) as -> by (destruct (e =? 0) eqn:E0; cbn [andb]; [apply Z.eqb_eq; apply K; lia|apply Z.eqb_neq; intros C; apply K in C; lia]). reflexivity.
  - intros H. apply N in H. apply Z0 in H. apply K. apply H.
Qed.
Lemma commit_failed : forall t d0, t_ret t <> KNOT_EOK -> exists t', lmdb_commit d0 t = (d0, t') /\ t_ret t' = t_ret t.
Proof. intros t d0 H. rewrite commit_dead by exact H. exists (lmdb_abort t). split; [reflexivity|apply abort_ret]. Qed.
Lemma del_step : forall t d io p fuel, live t d true io -> sorted d -> p <> [] -> (length d < fuel)%nat ->
  exists t', lmdb_del_prefix fuel t p = Ok t' /\ (live t' (filter (fun x => negb (is_prefix_of p (fst x))) d) true io \/ dead t' io).
Proof.
  intros t d io p fuel (R & D & W & S & N) So Hp Hf. unfold lmdb_del_prefix.
  assert (HB : body_ok (fun (s : unit) _ _ => s) (fun _ _ => false) true (fun (_ : unit) t => let* t := lmdb_del_cur t in Ok (tt, t))).
  { intros [] t0 k v R0 S0 So0 C CK CV. destruct (body_del_ok (fun _ _ => false) tt t0 k v R0 S0 So0 C CK CV) as (t' & E & H). exists t'. auto. }
  destruct (foreach_spec _ _ _ _ _ p HB fuel tt t) as (u & t' & E & H); auto; try (rewrite D; assumption). rewrite E. cbn [rbind]. exists t'. split; [reflexivity|]. destruct H as [(A & _ & B & C & F & G)|(A & B)].
  - left. split; [exact A|]. split; [|split; [congruence|split; [exact F|auto]]]. rewrite B, D. unfold kept. apply filter_ext. intros x. unfold inp, keepf. apply orb_false_r.
  - right. split; [exact A|]. intros H. apply B. auto.
Qed.
Lemma foreach_dead : forall S fuel p (body : S -> txn -> res (S * txn)) s t, t_ret t <> KNOT_EOK -> (0 < fuel)%nat -> foreach fuel p body s t = Ok (s, lmdb_abort t).
Proof. intros S fuel p body s t H Hf. unfold foreach. rewrite find_dead by exact H. apply loop_done. exact Hf. Qed.
Lemma del_failed : forall t io p fuel, dead t io -> (0 < fuel)%nat -> exists t', lmdb_del_prefix fuel t p = Ok t' /\ dead t' io.
Proof. intros t io p fuel (A & B) Hf. unfold lmdb_del_prefix. rewrite foreach_dead by assumption. cbn [rbind]. exists (lmdb_abort t). split; [reflexivity|]. split; [rewrite abort_ret; exact A|exact B]. Qed.
(** A search for one key *)
Lemma find_step : forall t d rw io k force b t', live t d rw io -> sorted d -> k <> [] -> lmdb_find t (Some k) EXACT force = (b, t') ->
  (b = true /\ live t' d rw io /\ t_ck t' = k /\ In (k, t_cv t') d) \/
  (b = false /\ force = false /\ live t' d rw io /\ (forall v, ~ In (k, v) d)) \/
  (b = false /\ force = true /\ t_ret t' = KNOT_ENOENT /\ (forall v, ~ In (k, v) d)) \/
  (b = false /\ dead t' io).
Proof.
  intros t d rw io k force b t' (R & D & W & S & N) So Hk E. rewrite <- D in So. pose proof (find_spec _ _ _ _ _ _ E R S So) as (D1 & W1 & S1 & N1 & F1 & T1 & X1 & X2 & X3). rewrite D in *.
  assert (L : ready t' -> live t' d rw io) by (intros R'; split; [exact R'|split; [congruence|split; [congruence|split; [exact S1|auto]]]]).
  destruct b.
  - left. destruct (T1 eq_refl) as (R' & _ & (Hi & Ek)). split; [reflexivity|]. split; [apply L; exact R'|]. split; [exact Ek|]. rewrite Ek in Hi. exact Hi.
  - right. assert (M : forall v, miss EXACT d k -> ~ In (k, v) d) by (intros v Hm Hi; exact (Hm k v Hi eq_refl)).
    destruct (Z.eq_dec (t_ret t') KNOT_EOK) as [Er|Er].
    + left. destruct (X1 eq_refl Er) as (O & _ & -> & Hm). split; [reflexivity|]. split; [reflexivity|]. split; [apply L; split; assumption|]. intros v. apply M. exact Hm.
    + right. destruct io as [|e io].
      * left. specialize (N eq_refl). destruct force; [|exfalso; apply Er; apply F1; auto]. destruct (X2 eq_refl eq_refl N Hk) as (A & B). split; [reflexivity|]. split; [reflexivity|]. split; [exact A|]. intros v. apply M. exact B.
      * right. split; [reflexivity|]. split; [exact Er|discriminate].
Qed.
