(** C50: DNS cookies. *)
From Verif Require Import Base WireModel WireProofs SockaddrModel CookiesModel.

(** ** Specification: RFC 9018, section 4. Version, three reserved bytes, the time, the hash of the client cookie,
    these bytes and the address of the client. *)
Definition is_hash (sip : hash_fn) : Prop := forall k m, zlen (sip k m) = 8 /\ bytes (sip k m).
Definition cookie_of (sip : hash_fn) (secret cc addr : list Z) (r1 r2 r3 time : Z) : list Z :=
  let fixed := [1; r1; r2; r3] ++ be 4 time in fixed ++ sip secret (cc ++ fixed ++ addr).

Lemma ctm_acc : forall a b e, 0 <= e -> bytes a -> bytes b -> zlen a = zlen b -> 0 <= const_time_memcmp a b e /\ (const_time_memcmp a b e = 0 <-> e = 0 /\ a = b).
Proof.
  induction a as [|x a IH]; intros [|y b] e He Ha Hb HL; rewrite ?zlen_cons, ?zlen_nil in HL; cbn [const_time_memcmp].
  - split; [lia|]. tauto.
  - pose proof (zlen_nonneg b). lia.
  - pose proof (zlen_nonneg a). lia.
  - apply bytes_cons in Ha, Hb. destruct Ha as [Hx Ha], Hb as [Hy Hb]. unfold byte in *. assert (0 <= Z.lxor x y) by (apply Z.lxor_nonneg; lia). assert (0 <= Z.lor e (Z.lxor x y)) by (apply Z.lor_nonneg; lia). destruct (IH b (Z.lor e (Z.lxor x y))) as [P Q]; auto; [lia|]. split; auto. rewrite Q, Z.lor_eq_0_iff, Z.lxor_eq_0_iff. split; [intros [[-> ->] ->]; auto|intros [-> E]; injection E as -> ->; auto].
Qed.
Lemma ctm_eq : forall a b, bytes a -> bytes b -> zlen a = zlen b -> (const_time_memcmp a b 0 =? 0) = true <-> a = b.
Proof. intros. destruct (ctm_acc a b 0) as [_ Q]; auto; [lia|]. rewrite Z.eqb_eq, Q. tauto. Qed.

(** A client cookie is accepted exactly if it is the one generated. *)
Theorem c50_client : forall sip p a raw cc, is_hash sip -> cp_server p = Some a -> sockaddr_raw a = Some raw -> bytes cc ->
  client_generate sip p = Ok (sip (cp_secret p) raw) /\ (client_check sip p cc = Ok KNOT_EOK <-> cc = sip (cp_secret p) raw) /\ (cc <> sip (cp_secret p) raw -> client_check sip p cc = Err KNOT_EINVAL).
Proof.
  intros sip p a raw cc HH HA HR HB. assert (G : client_generate sip p = Ok (sip (cp_secret p) raw)) by (unfold client_generate; rewrite HA, HR; auto). split; auto. unfold client_check. rewrite G. cbn [rbind]. destruct (HH (cp_secret p) raw) as [HL HY].
  destruct (zlen cc =? 8) eqn:E8; cbn [negb]; [|split; [split; [discriminate|intros ->; lia]|auto]]. pose proof (ctm_eq cc (sip (cp_secret p) raw) HB HY ltac:(lia)) as C. destruct (const_time_memcmp cc _ 0 =? 0) eqn:E; cbn [negb].
  - split; [tauto|]. intros N. destruct (N (proj1 C eq_refl)).
  - split; [|auto]. split; [discriminate|]. intros X. apply C in X. discriminate.
Qed.
(** A server cookie is accepted exactly if it has version 1, the hash matches and its time is between the bounds,
    computed modulo 2^32. The check never fails otherwise. *)
Theorem c50_server : forall sip p a raw sc cc, is_hash sip -> cp_client p = Some a -> sockaddr_raw a = Some raw -> bytes sc -> zlen cc = 8 ->
  (server_check sip p sc cc = Ok KNOT_EOK <->
   exists r1 r2 r3 t, sc = cookie_of sip (cp_secret p) cc raw r1 r2 r3 t /\ 0 <= t < 2 ^ 32 /\ (cp_time p - cp_before p) mod 2 ^ 32 <= t <= (cp_time p + cp_after p) mod 2 ^ 32) /\
  (server_check sip p sc cc = Ok KNOT_EOK \/ exists e, server_check sip p sc cc = Err e).
Proof.
  intros sip p a raw sc cc HH HA HR HB HC. unfold server_check. destruct (zlen sc <? 8) eqn:E8.
  { split; [|eauto]. split; [discriminate|]. intros (r1 & r2 & r3 & t & -> & _). exfalso. unfold cookie_of in E8. destruct (HH (cp_secret p) (cc ++ ([1; r1; r2; r3] ++ be 4 t) ++ raw)) as [L _]. cbv zeta in E8. rewrite zlen_app, L in E8. pose proof (zlen_nonneg ([1; r1; r2; r3] ++ be 4 t)). lia. }
  assert (SP : exists v r1 r2 r3 t rest, sc = ([v; r1; r2; r3] ++ be 4 t) ++ rest /\ 0 <= t < 2 ^ 32 /\ bytes rest).
  { destruct sc as [|v [|r1 [|r2 [|r3 [|t1 [|t2 [|t3 [|t4 rest]]]]]]]]; try (exfalso; rewrite ?zlen_cons, ?zlen_nil in E8; lia). exists v, r1, r2, r3, (unbe [t1; t2; t3; t4]), rest. assert (B4 : bytes [t1; t2; t3; t4]) by (rewrite !bytes_cons in *; intuition constructor). pose proof (be_unbe _ B4) as U. cbn [length] in U. rewrite U. split; [reflexivity|]. pose proof (unbe_bound _ B4) as V. change (256 ^ zlen [t1; t2; t3; t4]) with (2 ^ 32) in V. split; [exact V|]. rewrite !bytes_cons in HB. tauto. }
  destruct SP as (v & r1 & r2 & r3 & t & rest & -> & Ht & BR). assert (L4 : zlen (be 4 t) = 4) by (rewrite be_length; reflexivity). set (fixed := [v; r1; r2; r3] ++ be 4 t) in *. assert (LF : zlen fixed = 8) by (unfold fixed; rewrite zlen_app, L4; reflexivity).
  pose proof (zlen_nonneg rest). rewrite zlen_app in E8.
  rewrite (mem_read_ok _ 4 4) by (rewrite ?zlen_app; lia). cbn [rbind].
  assert (UT : unbe (zfirstn 4 (zskipn 4 (fixed ++ rest))) = t). { unfold fixed. rewrite <- app_assoc. change (zskipn 4 ([v; r1; r2; r3] ++ be 4 t ++ rest)) with (be 4 t ++ rest). rewrite <- L4. rewrite zfirstn_app_exact. rewrite unbe_be, Z.mod_small by (change (256 ^ Z.of_nat 4) with (2 ^ 32); auto). auto. }
  rewrite UT. cbv zeta. unfold u32.
  assert (INJ : forall s1 s2 s3 t', (fixed ++ rest) = cookie_of sip (cp_secret p) cc raw s1 s2 s3 t' -> 0 <= t' < 2 ^ 32 -> v = 1 /\ s1 = r1 /\ s2 = r2 /\ s3 = r3 /\ t' = t /\ rest = sip (cp_secret p) (cc ++ fixed ++ raw)).
  { intros s1 s2 s3 t' E Ht'. unfold cookie_of in E. cbv zeta in E. set (f' := [1; s1; s2; s3] ++ be 4 t') in *. pose proof (app_inj_len fixed rest f' _ LF E) as EF.
    destruct EF as [EF ER]. rewrite <- EF in ER. unfold fixed, f' in EF. apply app_inj_len in EF; [|reflexivity]. destruct EF as [EF EB']. injection EF as -> -> -> ->. assert (t' = t) as ->. { apply (f_equal unbe) in EB'. rewrite !unbe_be in EB'. change (256 ^ Z.of_nat 4) with (2 ^ 32) in EB'. rewrite !Z.mod_small in EB' by auto. auto. }
    do 5 (split; [auto|]). auto. }
  destruct (_ || _) eqn:ER. { split; [|eauto]. split; [discriminate|]. intros (s1 & s2 & s3 & t' & E & Ht' & HW). destruct (INJ _ _ _ _ E Ht') as (_ & _ & _ & _ & -> & _). exfalso. lia. }
  rewrite (mem_read_ok _ 0 8) by (rewrite ?zlen_app; lia). cbn [rbind]. change (zskipn 0 (fixed ++ rest)) with (fixed ++ rest). rewrite <- LF. rewrite zfirstn_app_exact. unfold server_generate0. rewrite HA, HC. change (8 =? 8) with true. cbn [negb]. rewrite mem_read_ok by lia. cbn [rbind]. change (unbe (zfirstn 1 (zskipn 0 fixed))) with v.
  destruct (v =? 1) eqn:EV; cbn [negb rbind]; [|split; [|eauto]; split; [discriminate|]; intros (s1 & s2 & s3 & t' & E & Ht' & HW); destruct (INJ _ _ _ _ E Ht') as (-> & _); discriminate]. rewrite HR. cbn [rbind]. destruct (HH (cp_secret p) (cc ++ fixed ++ raw)) as [LH BH]. set (h := sip (cp_secret p) (cc ++ fixed ++ raw)) in *.
  assert (v = 1) by lia. subst v. rewrite !zlen_app, LH, LF. destruct (8 + zlen rest =? 8 + 8) eqn:EL; cbn [negb rbind].
  - rewrite !mem_read_ok by (rewrite ?zlen_app; lia). cbn [rbind]. rewrite <- LF. rewrite !zskipn_app_exact. rewrite !zfirstn_all by lia. pose proof (ctm_eq rest h BR BH ltac:(lia)) as C. destruct (const_time_memcmp rest h 0 =? 0) eqn:EC; cbn [negb].
    + split; [|auto]. split; auto. intros _. exists r1, r2, r3, t. split; [|split; [auto|lia]]. rewrite (proj1 C eq_refl). reflexivity.
    + split; [|eauto]. split; [discriminate|]. intros (s1 & s2 & s3 & t' & E & Ht' & HW); destruct (INJ _ _ _ _ E Ht') as (_ & _ & _ & _ & _ & X). apply C in X. discriminate.
  - split; [|eauto]. split; [discriminate|]. intros (s1 & s2 & s3 & t' & E & Ht' & HW); destruct (INJ _ _ _ _ E Ht') as (_ & _ & _ & _ & _ & X). fold h in X. subst rest. lia.
Qed.
(** The same client and secret, with clocks such that the window does not wrap around: a generated cookie is accepted
    exactly within its lifetime. *)
Theorem c50_lifetime_partial : forall sip a raw secret cc t1 t2 before after srv b1 a1, is_hash sip -> sockaddr_raw a = Some raw -> zlen cc = 8 ->
  0 <= t1 < 2 ^ 32 -> 0 <= before <= t2 -> 0 <= after -> t2 + after < 2 ^ 32 ->
  exists sc, server_generate sip (mkcp 1 t1 b1 a1 (Some a) srv secret) cc = Ok sc /\
   (t2 - before <= t1 <= t2 + after -> server_check sip (mkcp 1 t2 before after (Some a) srv secret) sc cc = Ok KNOT_EOK) /\
   (~ (t2 - before <= t1 <= t2 + after) -> server_check sip (mkcp 1 t2 before after (Some a) srv secret) sc cc = Err KNOT_ERANGE).
Proof.
  intros sip a raw secret cc t1 t2 before after srv b1 a1 HH HR HC H1 H2 H3 H4. set (fixed := [1; 0; 0; 0] ++ be 4 t1). assert (L4 : zlen (be 4 t1) = 4) by (rewrite be_length; reflexivity). assert (LF : zlen fixed = 8) by (unfold fixed; rewrite zlen_app, L4; reflexivity). set (h := sip secret (cc ++ fixed ++ raw)). destruct (HH secret (cc ++ fixed ++ raw)) as [LH BH]. fold h in LH, BH.
  exists (fixed ++ h). split.
  { unfold server_generate, server_generate0. cbn [cp_version cp_time cp_client cp_secret]. rewrite HC. change (8 =? 8) with true. cbn [negb]. fold fixed. rewrite mem_read_ok by lia. cbn [rbind]. change (unbe (zfirstn 1 (zskipn 0 fixed))) with 1. change (1 =? 1) with true. cbn [negb]. rewrite HR. reflexivity. }
  split; intros HW.
  - apply (c50_server sip (mkcp 1 t2 before after (Some a) srv secret) a raw); auto.
    + apply bytes_app. split; auto. unfold fixed. apply bytes_app. split; [|apply be_bytes]. rewrite !bytes_cons. unfold byte. repeat (split; [lia|]). constructor.
    + cbn [cp_time cp_before cp_after cp_secret]. exists 0, 0, 0, t1. split; [reflexivity|]. split; auto. rewrite !Z.mod_small by lia. auto.
  - unfold server_check. cbn [cp_time cp_before cp_after]. rewrite zlen_app, LF, LH. change (8 + 8 <? 8) with false. cbv iota. rewrite (mem_read_ok _ 4 4) by (rewrite ?zlen_app; lia). cbn [rbind].
    assert (UT : unbe (zfirstn 4 (zskipn 4 (fixed ++ h))) = t1). { unfold fixed. rewrite <- app_assoc. change (zskipn 4 ([1; 0; 0; 0] ++ be 4 t1 ++ h)) with (be 4 t1 ++ h). rewrite <- L4. rewrite zfirstn_app_exact. rewrite unbe_be, Z.mod_small by (change (256 ^ Z.of_nat 4) with (2 ^ 32); auto). auto. }
    rewrite UT. cbv zeta. unfold u32. rewrite !Z.mod_small by lia. replace ((t1 <? t2 - before) || (t1 >? t2 + after)) with true by lia. reflexivity.
Qed.
(** Around the wrap of the 32-bit clock a cookie is rejected in the second it was made. *)
Definition const_hash : hash_fn := fun _ _ => [1; 2; 3; 4; 5; 6; 7; 8].
Theorem c50_wrap_refuted : exists sip a cc sc, is_hash sip /\ let p := mkcp 1 100 3600 300 (Some a) None [] in server_generate sip p cc = Ok sc /\ server_check sip p sc cc = Err KNOT_ERANGE.
Proof.
  exists const_hash, (SIn4 [127; 0; 0; 1] [0; 53]), [9; 9; 9; 9; 9; 9; 9; 9], [1; 0; 0; 0; 0; 0; 0; 100; 1; 2; 3; 4; 5; 6; 7; 8].
  split; [intros k m; split; [reflexivity|]; unfold const_hash; rewrite !bytes_cons; unfold byte; repeat (split; [lia|]); constructor|]. split; reflexivity.
Qed.
(** Other versions are neither generated nor accepted. *)
Theorem c50_version : forall sip p a cc, cp_client p = Some a -> zlen cc = 8 -> byte (cp_version p) -> cp_version p <> 1 -> server_generate sip p cc = Err KNOT_ENOTSUP.
Proof.
  intros sip p a cc HA HC HB HV. unfold server_generate, server_generate0. rewrite HA, HC. change (8 =? 8) with true. cbn [negb]. assert (L4 : zlen (be 4 (cp_time p)) = 4) by (rewrite be_length; reflexivity). rewrite mem_read_ok by (rewrite ?zlen_app, ?L4; change (zlen [cp_version p; 0; 0; 0]) with 4; lia). cbn [rbind]. change (unbe (zfirstn 1 (zskipn 0 ([cp_version p; 0; 0; 0] ++ be 4 (cp_time p))))) with (cp_version p). replace (cp_version p =? 1) with false by lia. reflexivity.
Qed.
(** A concrete case. *)
Example c50_case : let p := mkcp 1 1000000 3600 300 (Some (SIn4 [127; 0; 0; 1] [0; 53])) None [7] in exists sc, server_generate const_hash p [9; 9; 9; 9; 9; 9; 9; 9] = Ok sc /\ server_check const_hash p sc [9; 9; 9; 9; 9; 9; 9; 9] = Ok KNOT_EOK.
Proof. eexists. split; reflexivity. Qed.
Print Assumptions c50_client. Print Assumptions c50_server. Print Assumptions c50_lifetime_partial.
