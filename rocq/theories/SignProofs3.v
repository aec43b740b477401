(** Proofs about signing: signed nodes, repeated signing, threads. *)
From Coq Require Import Permutation.
From Verif Require Import Base SerialModel KeyModel SignModel SignSpec SignProofs SignProofs2.

Lemma rf_margin : forall c, settings_ok c -> rf c = margin c /\ w32 (rf c) = margin c.
Proof. intros c H. destruct (margin_small c H) as (A & B). unfold rf. fold (margin c). split; [|exact A]. unfold w32. apply Z.mod_small. lia. Qed.

Lemma claims_good : forall c keys nd r k s n e, settings_ok c -> crypto_ok (c_crypto c) -> flag_ok c keys nd -> times_ok c (margin c) nd ->
  In r (n_rrs nd) -> In k keys -> claims c nd r k s n e ->
  good c k r s /\ reads (c_now c) (h_exp (s_hdr s)) e /\ c_now c + margin c < e.
Proof.
  intros c keys nd r k s n e Hs Hc Hf Ht Hr Hk H. pose proof (margin_small c Hs) as (_ & Hm). destruct (rf_margin c Hs) as (R1 & R2).
  assert (Hn : 0 <= c_now c < 2 ^ 63) by (destruct Hs; lia).
  destruct (claims_type _ _ _ _ _ _ _ H) as (_ & Hin).
  unfold claims, claimed in H. destruct n; destruct H as (A & B).
  - destruct (sign_rrset_fields c k r s e Hs Hc B) as ((F1 & F2) & V & Fr & E1 & E2 & E3).
    split; [|split; [|exact E3]].
    + split; [exact F1|split; [exact V|exact Fr]].
    + assert (X : 0 <= h_exp (s_hdr s) < 2 ^ 32). { destruct F2 as (_ & _ & _ & -> & _). apply Z.mod_pos_bound. lia. }
      destruct F2 as (_ & _ & _ & F2 & _). subst e. unfold reads. destruct Hs as (_ & _ & _ & Hl & _). unfold margin in *. rewrite F2. split; [reflexivity|lia].
  - specialize (Hin eq_refl). apply valid_in in A. destruct A as (Ie & M & Ck). destruct (Ht s Hin) as (T1 & T2 & T3).
    apply matches_names in M. unfold knot_check_signature in Ck. rewrite R2 in Ck.
    assert (Hu : c_unsafe_expired c = false) by (destruct Hs as (_ & _ & _ & _ & X); exact X). rewrite Hu in Ck. cbn [negb andb] in Ck.
    destruct (is_expired_signature (s_hdr s) (c_now c) (margin c)) eqn:Ex; [discriminate|].
    destruct (not_expired (s_hdr s) (c_now c) (margin c) Hn Hm T1 T2 T3 Ex) as (Fr & te & X1 & X2 & X3).
    split; [|subst e; rewrite X2; auto]. split; [exact M|split; [|exact Fr]].
    unfold eskip in Ck. unfold eff in Ie. destruct (c_drop c); [contradiction|].
    unfold skip_crypto in Ck. destruct (n_valid nd && negb (c_conflict c)) eqn:Esk.
    + apply andb_true_iff in Esk. destruct Esk as (V1 & V2). apply negb_true_iff in V2. eapply Hf; eauto.
    + unfold verifies. unfold dnssec_sign_verify in Ck.
      destruct (dnssec_algorithm_reproducible (c_alg c) (c_reproducible c) && k_can_sign k); [|exact Ck].
      destruct (cr_repro (c_crypto c) k (s_hdr s) r) as [v|?| |] eqn:Er; try discriminate.
      destruct (list_eq_dec Z.eq_dec v (s_val s)) as [->|N]; [|discriminate]. apply (proj2 Hc). exact Er.
Qed.

Lemma node_well_signed : forall c keys nd x, node_ok nd -> settings_ok c -> crypto_ok (c_crypto c) -> flag_ok c keys nd -> times_ok c (margin c) nd ->
  sign_node_rrsets c keys nd = Ok x ->
  well_signed c keys nd (apply_node nd x) /\ until c (ch_expire x) (apply_node nd x) /\ (n_sigs (apply_node nd x) <> [] -> ch_expire x <> 0).
Proof.
  intros c keys nd x Ho Hs Hc Hf Ht H. destruct (after_iff c keys nd x Ho H) as (A1 & A2 & A3 & A4 & A5 & A6).
  assert (U : until c (ch_expire x) (apply_node nd x)).
  { intros s Hin. apply A1 in Hin. destruct Hin as (r & k & n & e & Hr & Hsh & Hk & Hu & Hcl).
    destruct (claims_good c keys nd r k s n e Hs Hc Hf Ht Hr Hk Hcl) as (_ & R & L). exists e. split; [exact R|].
    assert (e <> 0) by (pose proof (margin_small c Hs); destruct Hs; lia).
    destruct (A3 r k s n e Hr Hsh Hk Hu Hcl H0) as (X & Y). unfold time64 in A6. lia. }
  split; [|split; [exact U|]].
  - unfold well_signed. repeat match goal with |- _ /\ _ => split end; try reflexivity.
    + intros r k Hr Hm Hk Hu. apply should_must in Hm. destruct (A2 r k Hr Hm Hk) as ((b & Hb) & B).
      assert (b = true) as -> by (eapply in_use_true; eauto). destruct (B Hb) as (s & n & e & Hcl). exists s. split.
      * apply A1. exists r, k, n, e. auto.
      * eapply claims_good; eauto.
    + intros s Hin. apply A1 in Hin. destruct Hin as (r & k & n & e & Hr & Hsh & Hk & Hu & Hcl). exists r, k.
      split; [exact Hr|split; [apply should_must; exact Hsh|split; [exact Hk|split; [apply use_true; exact Hu|]]]]. eapply claims_good; eauto.
    + intros r us Hr Hus.
      set (g := fun k => match valid_signature c k (rf c) (eskip c nd) r (eff c nd) with
                         | Some s => s
                         | None => match knot_sign_rrset c k r with Ok (s, _) => s | _ => mks (mkh 0 0 0 0 0 0 0 []) [] end end).
      rewrite <- (map_length g us). apply NoDup_incl_length; [apply NoDup_filter; exact A5|].
      intros s Hin. apply filter_In in Hin. destruct Hin as (Hin & Et). apply Z.eqb_eq in Et. apply A1 in Hin.
      destruct Hin as (r' & k & n & e & Hr' & Hsh & Hk & Hu & Hcl). destruct (claims_type _ _ _ _ _ _ _ Hcl) as (Et' & _).
      assert (r' = r) as -> by (destruct Ho as (Hd & _); eapply same_type; eauto; unfold s_type in Et'; congruence).
      apply in_map_iff. exists k. split; [|apply Hus; [exact Hk|apply use_true; exact Hu]].
      unfold claims, claimed in Hcl. unfold g. destruct n; destruct Hcl as (X & Y); rewrite X; [rewrite Y|]; reflexivity.
  - intros Hne. destruct (n_sigs (apply_node nd x)) as [|s l] eqn:E; [congruence|].
    destruct (U s) as (te & _ & X); [rewrite E; left; reflexivity|]. lia.
Qed.

Lemma valid_accepts : forall c keys nd r k s, settings_ok c -> crypto_ok (c_crypto c) -> compare_ok c keys -> In k keys ->
  names k r (s_hdr s) -> verifies c k r s -> fresh_strict (c_now c) (margin c) (s_hdr s) ->
  matches k r s && knot_check_signature c k (rf c) (skip_crypto c nd) r s = true.
Proof.
  intros c keys nd r k s Hs Hc Hcmp Hk Hna Hv Hfr. apply andb_true_iff. split; [apply matches_names; exact Hna|].
  pose proof (margin_small c Hs) as (_ & Hm). destruct (rf_margin c Hs) as (R1 & R2).
  unfold knot_check_signature. rewrite R2. rewrite (strict_not_expired (s_hdr s) (c_now c) (margin c)); [|destruct Hs; lia|exact Hm|exact Hfr].
  rewrite andb_false_r. destruct (skip_crypto c nd); [reflexivity|]. unfold dnssec_sign_verify.
  destruct (dnssec_algorithm_reproducible (c_alg c) (c_reproducible c) && k_can_sign k) eqn:E; [|exact Hv].
  apply andb_true_iff in E. destruct E as (E1 & E2). rewrite (Hcmp E1 k (s_hdr s) r (s_val s) Hk E2 Hv).
  destruct (list_eq_dec Z.eq_dec (s_val s) (s_val s)); [reflexivity|contradiction].
Qed.

Lemma node_no_churn : forall c keys nd x, node_ok nd -> settings_ok c -> crypto_ok (c_crypto c) -> compare_ok c keys ->
  sign_node_rrsets c keys nd = Ok x -> no_churn c keys nd (apply_node nd x).
Proof.
  intros c keys nd x Ho Hs Hc Hcmp H s Hin. destruct (after_iff c keys nd x Ho H) as (A1 & _). apply A1 in Hin.
  destruct Hin as (r & k & n & e & Hr & Hsh & Hk & Hu & Hcl). destruct (claims_type _ _ _ _ _ _ _ Hcl) as (_ & Hl).
  destruct n; [|left; auto]. right. exists r, k. destruct Hcl as (A & B).
  destruct (sign_rrset_fields c k r s e Hs Hc B) as (F1 & _).
  split; [exact Hr|split; [apply should_must; exact Hsh|split; [exact Hk|split; [apply use_true; exact Hu|split; [exact F1|]]]]].
  intros Hd s0 Hin0 Hn0 Hv0 Hf0. unfold eff, eskip in A. rewrite Hd in A. unfold valid_signature in A.
  apply (find_none _ _ A) in Hin0. rewrite (valid_accepts c keys nd r k s0 Hs Hc Hcmp Hk Hn0 Hv0 Hf0) in Hin0. discriminate.
Qed.

(** *** Success *)
Lemma missing_total : forall c skip r sigs keys x,
  (forall k, In k keys -> exists b, knot_zone_sign_use_key k r = Ok b) ->
  (forall k, In k keys -> used k r -> valid_signature c k (rf c) skip r sigs = None -> exists s e, knot_sign_rrset c k r = Ok (s, e)) ->
  exists y, missing_keys c skip r sigs keys x = Ok y.
Proof.
  intros c skip r sigs. induction keys as [|k keys IH]; intros x H1 H2; cbn [missing_keys]; [eauto|].
  destruct (H1 k (or_introl eq_refl)) as (b & Eb). rewrite Eb. cbn [rbind].
  assert (K1 : forall k, In k keys -> exists b, knot_zone_sign_use_key k r = Ok b) by (intros; apply H1; right; assumption).
  assert (K2 : forall k, In k keys -> used k r -> valid_signature c k (rf c) skip r sigs = None -> exists s e, knot_sign_rrset c k r = Ok (s, e)) by (intros; apply H2; auto; right; assumption).
  destruct b; cbn [negb]; [|apply IH; assumption].
  fold (rf c). destruct (valid_signature c k (rf c) skip r sigs) as [s|] eqn:Ev; [apply IH; assumption|].
  destruct (H2 k (or_introl eq_refl) Eb Ev) as (s & e & Es). rewrite Es. cbn [rbind]. apply IH; assumption.
Qed.
Lemma sign_node_total : forall c keys nd,
  (forall r k, In r (n_rrs nd) -> In k keys -> exists b, knot_zone_sign_use_key k r = Ok b) ->
  (forall r k, In r (n_rrs nd) -> should_be_signed nd r = true -> In k keys -> used k r -> valid_signature c k (rf c) (eskip c nd) r (eff c nd) = None -> exists s e, knot_sign_rrset c k r = Ok (s, e)) ->
  exists x, sign_node_rrsets c keys nd = Ok x.
Proof.
  intros c keys nd H1 H2. unfold sign_node_rrsets.
  enough (E : forall rs x, incl rs (n_rrs nd) -> exists y, sign_rrsets c keys nd rs x = Ok y).
  { destruct (E (n_rrs nd) ch_empty (incl_refl _)) as (y & ->). cbn [rbind]. eauto. }
  induction rs as [|r rs IH]; intros x Hi; cbn [sign_rrsets]; [eauto|].
  assert (Hr : In r (n_rrs nd)) by (apply Hi; left; reflexivity).
  assert (Ez : exists z, sign_rrset c keys nd r = Ok z).
  { unfold sign_rrset. destruct (should_be_signed nd r) eqn:Es; cbn [negb]; [|eauto].
    specialize (H2 r). unfold eff, eskip in H2. destruct (c_drop c).
    - unfold force_resign_rrset, add_missing_rrsigs.
      destruct (missing_total c false r [] keys (mkch (synth_rrsig (r_type r) []) [] 0 0)) as (y & ->); [auto|intros; apply H2; auto|]. cbn [rbind]. eauto.
    - unfold add_missing_rrsigs. apply missing_total; auto. }
  destruct Ez as (z & ->). cbn [rbind]. apply IH. intros a Ha. apply Hi. right. exact Ha.
Qed.
Lemma rem_incl : forall c keys nd x, sign_node_rrsets c keys nd = Ok x -> incl (ch_rem x) (n_sigs nd).
Proof.
  intros c keys nd x H s Hin. unfold sign_node_rrsets in H.
  destruct (sign_rrsets c keys nd (n_rrs nd) ch_empty) as [y|?| |] eqn:Ey; cbn [rbind] in H; try discriminate. injection H as <-.
  apply sign_rrsets_spec in Ey; [|cbv; split; [discriminate|reflexivity]]. destruct Ey as (I1 & I2 & _).
  cbn [ch_join ch_rem remove_rrset_rrsigs remove_standalone_rrsigs] in Hin. rewrite !in_app_iff, synth_in, filter_In in Hin.
  destruct Hin as [[Hin|Hin]|Hin]; [|tauto|tauto]. apply I2 in Hin. destruct Hin as [Hin|(r & z & Hr & Hz & Hin)]; [destruct Hin|].
  destruct (should_be_signed nd r) eqn:Es.
  - destruct (sign_rrset_spec _ _ _ _ _ Hz Es) as (_ & _ & J & _). apply J in Hin. tauto.
  - unfold sign_rrset in Hz. rewrite Es in Hz. cbn [negb] in Hz. injection Hz as <-. cbn [remove_rrset_rrsigs ch_rem] in Hin. apply synth_in in Hin. tauto.
Qed.

(** *** Signing a signed node *)
Lemma signed_stable : forall c keys nd, node_ok nd -> settings_ok c -> crypto_ok (c_crypto c) -> compare_ok c keys -> keys_apart c keys ->
  c_drop c = false ->
  (forall k, In k keys -> (z_zsk (k_z k) || z_ksk (k_z k)) = true) ->
  (forall r k, In r (n_rrs nd) -> must_sign nd r -> In k keys -> in_use k r ->
     exists s, In s (n_sigs nd) /\ names k r (s_hdr s) /\ verifies c k r s /\ fresh_strict (c_now c) (margin c) (s_hdr s)) ->
  (forall s, In s (n_sigs nd) -> exists r k, In r (n_rrs nd) /\ must_sign nd r /\ In k keys /\ in_use k r /\
     names k r (s_hdr s) /\ verifies c k r s /\ fresh_strict (c_now c) (margin c) (s_hdr s)) ->
  (forall r k s1 s2, In r (n_rrs nd) -> In k keys -> In s1 (n_sigs nd) -> In s2 (n_sigs nd) ->
     names k r (s_hdr s1) -> names k r (s_hdr s2) -> verifies c k r s1 -> verifies c k r s2 -> s1 = s2) ->
  exists x, sign_node_rrsets c keys nd = Ok x /\ ch_rem x = [] /\ ch_add x = [].
Proof.
  intros c keys nd Ho Hs Hc Hcmp (Ha1 & Ha2) Hd Hrole Hall Honly Hone.
  assert (V : forall r k, In r (n_rrs nd) -> should_be_signed nd r = true -> In k keys -> used k r ->
     exists s, valid_signature c k (rf c) (eskip c nd) r (eff c nd) = Some s /\ In s (n_sigs nd) /\ names k r (s_hdr s) /\ verifies c k r s).
  { intros r k Hr Hsh Hk Hu. unfold eskip, eff. rewrite Hd. apply should_must in Hsh.
    destruct (Hall r k Hr Hsh Hk (use_true _ _ Hu)) as (s & Hin & Hna & Hv & Hf).
    destruct (valid_signature c k (rf c) (skip_crypto c nd) r (n_sigs nd)) as [s'|] eqn:E.
    - exists s'. split; [reflexivity|]. apply valid_in in E. destruct E as (I & M & Ck). apply matches_names in M. split; [exact I|split; [exact M|]].
      destruct (Honly s' I) as (r' & k' & Hr' & _ & Hk' & _ & N' & V' & _).
      assert (r' = r) as ->. { destruct Ho as (D & _). eapply same_type; eauto. destruct N' as (_ & _ & N'), M as (_ & _ & M). congruence. }
      destruct (skip_crypto c nd) eqn:Esk.
      + unfold skip_crypto in Esk. apply andb_true_iff in Esk. destruct Esk as (_ & Esk). apply negb_true_iff in Esk.
        assert (k' = k) as ->; [|exact V']. apply Ha1; auto. destruct N' as (N' & _), M as (M & _). congruence.
      + unfold knot_check_signature in Ck. destruct (negb (c_unsafe_expired c) && _); [discriminate|]. unfold dnssec_sign_verify in Ck. unfold verifies.
        destruct (dnssec_algorithm_reproducible (c_alg c) (c_reproducible c) && k_can_sign k); [|exact Ck].
        destruct (cr_repro (c_crypto c) k (s_hdr s') r) as [v|?| |] eqn:Er; try discriminate.
        destruct (list_eq_dec Z.eq_dec v (s_val s')) as [->|N]; [|discriminate]. apply (proj2 Hc). exact Er.
    - exfalso. unfold valid_signature in E. apply (find_none _ _ E) in Hin. rewrite (valid_accepts c keys nd r k s Hs Hc Hcmp Hk Hna Hv Hf) in Hin. discriminate. }
  destruct (sign_node_total c keys nd) as (x & Hx).
  - intros r k Hr Hk. destruct (use_key_iff k r (Hrole k Hk)) as (b & B & _). eauto.
  - intros r k Hr Hsh Hk Hu E. destruct (V r k Hr Hsh Hk Hu) as (s & X & _). congruence.
  - exists x. split; [exact Hx|]. destruct (after_iff c keys nd x Ho Hx) as (A1 & A2 & A3 & A4 & A5 & A6).
    assert (AE : ch_add x = []).
    { destruct (ch_add x) as [|s l] eqn:E; auto. exfalso. destruct (proj1 (A4 s)) as (r & k & e & Hr & Hsh & Hk & Hu & (X & _)); [left; reflexivity|].
      destruct (V r k Hr Hsh Hk Hu) as (s' & Y & _). congruence. }
    split; [|exact AE]. destruct (ch_rem x) as [|s l] eqn:E; auto. exfalso.
    assert (Hin : In s (n_sigs nd)). { apply (rem_incl c keys nd x Hx). rewrite E. left. reflexivity. }
    destruct (Honly s Hin) as (r & k & Hr & Hm & Hk & Hu & N & Ve & _). apply should_must in Hm.
    destruct (use_key_iff k r (Hrole k Hk)) as (b & B & _). assert (b = true) as -> by (eapply in_use_true; eauto).
    destruct (V r k Hr Hm Hk B) as (s' & Y1 & Y2 & Y3 & Y4). assert (s' = s) as -> by (eapply Hone; eauto).
    assert (P : In s (n_sigs (apply_node nd x))). { apply A1. exists r, k, false, (knot_time_from_u32 (h_exp (s_hdr s)) (c_now c)). repeat match goal with |- _ /\ _ => split end; auto. split; [exact Y1|reflexivity]. }
    unfold apply_node in P. cbn [n_sigs] in P. rewrite AE in P. cbn [fold_left] in P. apply filter_In in P. destruct P as (_ & P). apply negb_true_iff in P.
    enough (sig_in s (ch_rem x) = true) by congruence. apply sig_in_iff. rewrite E. left. reflexivity.
Qed.

Lemma sign_again : forall c keys nd x c2 nd2, node_ok nd -> settings_ok c -> crypto_ok (c_crypto c) -> flag_ok c keys nd -> times_ok c (margin c) nd ->
  sign_node_rrsets c keys nd = Ok x ->
  settings_ok c2 -> compare_ok c2 keys -> keys_apart c2 keys -> c_crypto c2 = c_crypto c -> c_drop c2 = false ->
  n_rrs nd2 = n_rrs nd -> n_nonauth nd2 = n_nonauth nd -> n_deleg nd2 = n_deleg nd -> Permutation (n_sigs (apply_node nd x)) (n_sigs nd2) ->
  (forall k, In k keys -> (z_zsk (k_z k) || z_ksk (k_z k)) = true) ->
  (forall s, In s (n_sigs nd2) -> fresh_strict (c_now c2) (margin c2) (s_hdr s)) ->
  exists x2, sign_node_rrsets c2 keys nd2 = Ok x2 /\ ch_rem x2 = [] /\ ch_add x2 = [].
Proof.
  intros c keys nd x c2 nd2 Ho Hs Hc Hf Ht H Hs2 Hcmp Hap Ec Hd Er En Ed Hp Hrole Hfr.
  destruct (node_well_signed c keys nd x Ho Hs Hc Hf Ht H) as ((_ & _ & _ & _ & W1 & W2 & W3) & _).
  destruct (after_iff c keys nd x Ho H) as (A1 & A2 & A3 & A4 & A5 & A6).
  assert (MS : forall r, must_sign nd2 r <-> must_sign nd r) by (intros r; unfold must_sign; rewrite En, Ed; reflexivity).
  assert (VE : forall k r s, verifies c2 k r s <-> verifies c k r s) by (intros; unfold verifies; rewrite Ec; reflexivity).
  assert (PI : forall s, In s (n_sigs nd2) <-> In s (n_sigs (apply_node nd x))).
  { intros s. split; intros X; [eapply Permutation_in; [apply Permutation_sym; exact Hp|exact X]|eapply Permutation_in; eassumption]. }
  destruct Ho as (D1 & D2 & D3).
  apply signed_stable; auto.
  - split; [rewrite Er; exact D1|split; [eapply Permutation_NoDup; eassumption|rewrite Er; exact D3]].
  - rewrite Ec. exact Hc.
  - rewrite Er. intros r k Hr Hm Hk Hu. apply MS in Hm. destruct (W1 r k Hr Hm Hk Hu) as (s & Hin & (G1 & G2 & _)).
    exists s. apply PI in Hin. split; [exact Hin|split; [exact G1|split; [apply VE; exact G2|apply Hfr; exact Hin]]].
  - intros s Hin. pose proof Hin as Hin'. apply PI in Hin. destruct (W2 s Hin) as (r & k & Hr & Hm & Hk & Hu & (G1 & G2 & _)).
    exists r, k. rewrite Er. split; [exact Hr|split; [apply MS; exact Hm|split; [exact Hk|split; [exact Hu|split; [exact G1|split; [apply VE; exact G2|apply Hfr; exact Hin']]]]]].
  - rewrite Er. intros r k s1 s2 Hr Hk H1 H2 N1 N2 V1 V2. apply PI, A1 in H1. apply PI, A1 in H2.
    destruct H1 as (r1 & k1 & n1 & e1 & Hr1 & S1 & Hk1 & U1 & C1), H2 as (r2 & k2 & n2 & e2 & Hr2 & S2 & Hk2 & U2 & C2).
    destruct (claims_type _ _ _ _ _ _ _ C1) as (T1 & _), (claims_type _ _ _ _ _ _ _ C2) as (T2 & _).
    assert (r1 = r) as -> by (destruct N1 as (_ & _ & N1); eapply same_type; eauto; unfold s_type in *; congruence).
    assert (r2 = r) as -> by (destruct N2 as (_ & _ & N2); eapply same_type; eauto; unfold s_type in *; congruence).
    destruct (claims_good c keys nd r k1 s1 n1 e1 Hs Hc Hf Ht Hr Hk1 C1) as ((_ & V1' & _) & _).
    destruct (claims_good c keys nd r k2 s2 n2 e2 Hs Hc Hf Ht Hr Hk2 C2) as ((_ & V2' & _) & _).
    assert (k1 = k) as -> by (apply (proj2 Hap k1 k (s_hdr s1) r (s_val s1)); [exact Hk1|exact Hk|apply VE; exact V1'|exact V1]).
    assert (k2 = k) as -> by (apply (proj2 Hap k2 k (s_hdr s2) r (s_val s2)); [exact Hk2|exact Hk|apply VE; exact V2'|exact V2]).
    eapply claimed_fun; eassumption.
Qed.
