(** Proofs about signing: times, one RRset, one node. *)
From Verif Require Import Base SerialModel SerialSpec SerialProofs KeyModel SignModel SignSpec.

(** *** 32-bit times *)
Lemma time_from_u32_reads : forall u now, 0 <= now < 2 ^ 63 -> 0 <= u < 2 ^ 32 ->
  exists t, reads now u t /\ knot_time_from_u32 u now = w64 t.
Proof.
  intros u now Hn Hu. unfold knot_time_from_u32.
  assert (Es : Z.shiftr now 32 = now / 2 ^ 32) by (apply Z.shiftr_div_pow2; lia).
  assert (G : forall q, w64 (w64 (Z.shiftl (w64 q) 32) + u) = w64 (q * 2 ^ 32 + u)).
  { intros q. unfold w64. rewrite Z.shiftl_mul_pow2 by lia. rewrite Z.mul_mod_idemp_l by lia. rewrite Z.add_mod_idemp_l by lia. reflexivity. }
  assert (G' : w64 (w64 (Z.shiftl (Z.shiftr now 32) 32) + u) = w64 (now / 2 ^ 32 * 2 ^ 32 + u)).
  { rewrite <- (G (now / 2 ^ 32)). rewrite Es.
    assert (w64 (now / 2 ^ 32) = now / 2 ^ 32) as -> by (unfold w64; apply Z.mod_small; lia). reflexivity. }
  cbv zeta. unfold w32, reads.
  destruct ((now mod 2 ^ 32 >? u) && (now mod 2 ^ 32 - u >? 2147483647)) eqn:E1;
  [|destruct ((now mod 2 ^ 32 <? u) && (u - now mod 2 ^ 32 >? 2147483647)) eqn:E2].
  - rewrite G. exists ((Z.shiftr now 32 + 1) * 2 ^ 32 + u). split; [|reflexivity]. rewrite Es. lia.
  - rewrite G. exists ((Z.shiftr now 32 - 1) * 2 ^ 32 + u). split; [|reflexivity]. rewrite Es. lia.
  - rewrite G'. exists (now / 2 ^ 32 * 2 ^ 32 + u). split; [|reflexivity]. lia.
Qed.

Definition margin (c : sctx) : Z := c_refresh c + c_prerefresh c.
Lemma margin_small : forall c, settings_ok c -> w32 (w32 (margin c)) = margin c /\ 0 <= margin c < 2 ^ 31.
Proof. intros c (Hn & H1 & H2 & H3 & _). unfold margin, w32. split; [|lia]. rewrite !Z.mod_small; lia. Qed.

Lemma not_expired : forall h now m, 0 <= now < 2 ^ 63 -> 0 <= m < 2 ^ 31 -> 0 <= h_exp h < 2 ^ 32 -> 0 <= h_inc h < 2 ^ 32 ->
  (forall t, reads now (h_exp h) t -> m <= t) ->
  is_expired_signature h now m = false ->
  fresh now m h /\ exists te, reads now (h_exp h) te /\ knot_time_from_u32 (h_exp h) now = te /\ now + m < te.
Proof.
  intros h now m Hn Hm He Hi Ht H. unfold is_expired_signature in H.
  destruct (time_from_u32_reads (h_exp h) now Hn He) as (te & Re & Ee).
  destruct (time_from_u32_reads (h_inc h) now Hn Hi) as (ti & Ri & Ei).
  rewrite Ee, Ei in H. pose proof (Ht te Re) as Hte. unfold reads in Re, Ri.
  assert (B1 : w64 te = te) by (unfold w64; apply Z.mod_small; lia).
  assert (B2 : w64 (te - m) = te - m) by (unfold w64; apply Z.mod_small; lia).
  rewrite B1, B2 in H. apply orb_false_iff in H. destruct H as (Ha & Hb).
  assert (Hti : ti <= now). { unfold w64 in Hb. lia. }
  split.
  - exists te, ti. unfold reads. repeat match goal with |- _ /\ _ => split end; lia.
  - exists te. unfold reads. repeat match goal with |- _ /\ _ => split end; lia.
Qed.

Lemma strict_not_expired : forall h now m, 0 <= now < 2 ^ 63 -> 0 <= m < 2 ^ 31 ->
  fresh_strict now m h -> is_expired_signature h now m = false.
Proof.
  intros h now m Hn Hm (te & ti & Me & Mi & H0 & Hi & He).
  assert (Be : 0 <= h_exp h < 2 ^ 32) by (rewrite <- Me; apply Z.mod_pos_bound; lia).
  assert (Bi : 0 <= h_inc h < 2 ^ 32) by (rewrite <- Mi; apply Z.mod_pos_bound; lia).
  destruct (time_from_u32_reads (h_exp h) now Hn Be) as (te' & Re & Ee).
  destruct (time_from_u32_reads (h_inc h) now Hn Bi) as (ti' & Ri & Ei).
  assert (te' = te) as -> by (unfold reads in Re; lia).
  assert (ti' = ti) as -> by (unfold reads in Ri; lia).
  unfold is_expired_signature. rewrite Ee, Ei.
  assert (w64 te = te) as -> by (unfold w64; apply Z.mod_small; lia).
  assert (w64 ti = ti) as -> by (unfold w64; apply Z.mod_small; lia).
  assert (w64 (te - m) = te - m) as -> by (unfold w64; apply Z.mod_small; lia).
  lia.
Qed.

(** *** Specification and model of the roles *)
Lemma name_eqb_eq : forall a b, name_eqb a b = true <-> a = b.
Proof. intros a b. unfold name_eqb. destruct (name_eq_dec a b); split; intros; try discriminate; auto. Qed.
Lemma should_must : forall nd r, should_be_signed nd r = true <-> must_sign nd r.
Proof.
  intros nd r. unfold should_be_signed, must_sign, T_RRSIG, T_NSEC, T_DS. destruct (r_data r) as [|d l].
  - split; [discriminate|]. intros (A & _). congruence.
  - destruct (n_nonauth nd).
    + rewrite orb_true_r. split; [discriminate|]. intros (_ & _ & A & _). discriminate.
    + rewrite orb_false_r. destruct (Z.eqb_spec (r_type r) 46).
      * split; [discriminate|]. intros (_ & A & _). contradiction.
      * destruct (n_deleg nd).
        -- split.
           ++ intros H. repeat match goal with |- _ /\ _ => split end; auto; [discriminate|]. intros _. lia.
           ++ intros (_ & _ & _ & H). specialize (H eq_refl). lia.
        -- split; auto. intros _. repeat match goal with |- _ /\ _ => split end; auto; discriminate.
Qed.
Lemma use_key_iff : forall k r, (z_zsk (k_z k) || z_ksk (k_z k)) = true ->
  exists b, knot_zone_sign_use_key k r = Ok b /\ (b = true <-> in_use k r).
Proof.
  intros k r Hr. unfold knot_zone_sign_use_key. rewrite Hr. cbn [negb].
  unfold in_use, key_set, T_DNSKEY, T_CDS, T_CDNSKEY.
  destruct (name_eqb (r_owner r) (k_name k)) eqn:En; cbn [negb].
  - apply name_eqb_eq in En.
    destruct ((r_type r =? 48) || (r_type r =? 59) || (r_type r =? 60)) eqn:Et.
    + eexists. split; [reflexivity|]. rewrite andb_true_iff, orb_true_iff. split.
      * intros (A & B). left. split; [split; [exact En|lia]|auto].
      * intros [(_ & A & B)|(A & _)]; [auto|]. exfalso. apply A. split; [exact En|lia].
    + eexists. split; [reflexivity|]. rewrite andb_true_iff, orb_true_iff. split.
      * intros (A & B). right. split; [intros (_ & X); lia|auto].
      * intros [((_ & A) & _)|(_ & A & B)]; [lia|auto].
  - eexists. split; [reflexivity|]. rewrite andb_true_iff, orb_true_iff. split.
    + intros (A & B). right. split; [|auto]. intros (X & _). apply name_eqb_eq in X. congruence.
    + intros [((A & _) & _)|(_ & A & B)]; [apply name_eqb_eq in A; congruence|auto].
Qed.
Lemma use_true : forall k r, knot_zone_sign_use_key k r = Ok true -> in_use k r.
Proof.
  intros k r H. destruct (z_zsk (k_z k) || z_ksk (k_z k)) eqn:E.
  - destruct (use_key_iff k r E) as (b & H1 & H2). rewrite H in H1. injection H1 as <-. apply H2. reflexivity.
  - unfold knot_zone_sign_use_key in H. rewrite E in H. discriminate.
Qed.
Lemma in_use_true : forall k r b, knot_zone_sign_use_key k r = Ok b -> in_use k r -> b = true.
Proof.
  intros k r b H U. destruct (z_zsk (k_z k) || z_ksk (k_z k)) eqn:E.
  - destruct (use_key_iff k r E) as (b' & H1 & H2). rewrite H in H1. injection H1 as ->. apply H2. exact U.
  - unfold knot_zone_sign_use_key in H. rewrite E in H. discriminate.
Qed.
Lemma matches_names : forall k r s, matches k r s = true <-> names k r (s_hdr s).
Proof. intros k r s. unfold matches, names, k_alg, s_type. rewrite !andb_true_iff, !Z.eqb_eq. tauto. Qed.
Lemma labels_ok : forall o, owner_labels o = labels_of o.
Proof.
  intros [|l o]; [reflexivity|]. unfold owner_labels, labels_of.
  destruct (list_eq_dec Z.eq_dec l [42]) as [E|N]; cbn [length]; lia.
Qed.

(** *** New signatures *)
Lemma sign_rrset_fields : forall c k r s e, settings_ok c -> crypto_ok (c_crypto c) ->
  knot_sign_rrset c k r = Ok (s, e) ->
  new_fields c k r (s_hdr s) /\ verifies c k r s /\ fresh (c_now c) (margin c) (s_hdr s) /\
  e = c_now c + c_lifetime c /\ knot_time_from_u32 (h_exp (s_hdr s)) (c_now c) = e /\ c_now c + margin c < e.
Proof.
  intros c k r s e Hs (Hc1 & Hc2) H. pose proof (margin_small c Hs) as (_ & Hm). destruct Hs as (Hn & Hr1 & Hr2 & Hl & _).
  unfold knot_sign_rrset in H. destruct (serial_compare _ _); try discriminate.
  match type of H with (let* v := ?f ?k ?h ?r in _) = _ => set (h0 := h) in *; set (f0 := f) in * end.
  destruct (f0 k h0 r) as [v|?| |] eqn:E; cbn [rbind] in H; try discriminate. injection H as <- <-.
  assert (V : cr_verify (c_crypto c) k h0 r v = true).
  { unfold f0 in E. destruct (c_reproducible c); [eapply Hc2|eapply Hc1]; exact E. }
  cbn [s_hdr s_val].
  assert (Ee : w64 (c_now c + c_lifetime c) = c_now c + c_lifetime c) by (unfold w64; apply Z.mod_small; unfold margin in *; lia).
  assert (Ei : w64 (c_now c - RRSIG_INCEPT_IN_PAST) = c_now c - 5400) by (unfold w64, RRSIG_INCEPT_IN_PAST; apply Z.mod_small; lia).
  unfold h0. rewrite Ee, Ei. cbn [h_exp].
  assert (Re : reads (c_now c) (w32 (c_now c + c_lifetime c)) (c_now c + c_lifetime c)) by (unfold reads, w32; unfold margin in *; lia).
  destruct (time_from_u32_reads (w32 (c_now c + c_lifetime c)) (c_now c)) as (t & Rt & Et); [lia|unfold w32; lia|].
  assert (t = c_now c + c_lifetime c) as -> by (unfold reads, margin in *; lia).
  repeat match goal with |- _ /\ _ => split end.
  - unfold new_fields, names. cbn [h_tag h_alg h_type h_labels h_ttl h_signer h_exp h_inc]. rewrite labels_ok.
    repeat match goal with |- _ /\ _ => split end; try reflexivity.
  - unfold h0, verifies in *. rewrite Ee, Ei in V. exact V.
  - exists (c_now c + c_lifetime c), (c_now c - 5400). cbn [h_exp h_inc]. unfold reads, w32, margin in *. lia.
  - reflexivity.
  - rewrite Et. exact Ee.
  - unfold margin in *. lia.
Qed.
Lemma sign_rrset_defined : forall c k r, settings_ok c ->
  knot_sign_rrset c k r <> UB \/ exists h, (if c_reproducible c then cr_repro (c_crypto c) else cr_sign (c_crypto c)) k h r = UB.
Proof.
  intros c k r (Hn & Hr1 & Hr2 & Hl & _). unfold knot_sign_rrset.
  assert (E : serial_compare (w32 (w64 (c_now c - RRSIG_INCEPT_IN_PAST))) (w32 (w64 (c_now c + c_lifetime c))) = SERIAL_LOWER).
  { assert (w64 (c_now c - RRSIG_INCEPT_IN_PAST) = c_now c - 5400) as -> by (unfold w64, RRSIG_INCEPT_IN_PAST; apply Z.mod_small; lia).
    assert (w64 (c_now c + c_lifetime c) = c_now c + c_lifetime c) as -> by (unfold w64; apply Z.mod_small; lia).
    apply serial_compare_spec_l; unfold serial32, rfc1982_lt, w32; lia. }
  rewrite E. destruct ((if c_reproducible c then cr_repro (c_crypto c) else cr_sign (c_crypto c)) k _ r) as [v|?| |] eqn:Ev; cbn [rbind].
  - left. discriminate.
  - left. discriminate.
  - right. eexists. exact Ev.
  - left. discriminate.
Qed.
