(** Proofs about signing: which signatures a node has afterwards. *)
From Coq Require Import Permutation.
From Verif Require Import Base SerialModel KeyModel SignModel SignSpec SignProofs.

(** *** Sets of signatures *)
Lemma sig_in_iff : forall s l, sig_in s l = true <-> In s l.
Proof. intros s l. unfold sig_in. destruct (in_dec sig_eq_dec s l); split; intros; try discriminate; auto; contradiction. Qed.
Lemma set_add_in : forall l s x, In x (set_add l s) <-> In x l \/ x = s.
Proof.
  intros l s x. unfold set_add. destruct (sig_in s l) eqn:E.
  - apply sig_in_iff in E. split; [auto|]. intros [H|H]; subst; auto.
  - rewrite in_app_iff. cbn [In]. intuition.
Qed.
Lemma set_add_nodup : forall l s, NoDup l -> NoDup (set_add l s).
Proof.
  intros l s H. unfold set_add. destruct (sig_in s l) eqn:E; auto.
  apply (Permutation_NoDup (l := s :: l)); [apply Permutation_cons_append|]. constructor; auto.
  intros X. apply sig_in_iff in X. congruence.
Qed.
Lemma fold_add_in : forall l l0 x, In x (fold_left set_add l l0) <-> In x l0 \/ In x l.
Proof.
  induction l as [|s l IH]; intros l0 x; cbn [fold_left In]; [tauto|]. rewrite IH, set_add_in. intuition.
Qed.
Lemma fold_add_nodup : forall l l0, NoDup l0 -> NoDup (fold_left set_add l l0).
Proof. induction l as [|s l IH]; intros l0 H; cbn [fold_left]; auto. apply IH, set_add_nodup, H. Qed.
Lemma set_remove_in : forall l s x, In x (set_remove l s) <-> In x l /\ x <> s.
Proof. intros l s x. unfold set_remove. rewrite filter_In. destruct (sig_eq_dec x s); intuition; discriminate. Qed.
Lemma synth_in : forall t l x, In x (synth_rrsig t l) <-> In x l /\ s_type x = t.
Proof. intros t l x. unfold synth_rrsig. rewrite filter_In, Z.eqb_eq. tauto. Qed.

(** *** 64-bit times with 0 for never *)
Definition lower (a t : Z) : Prop := a <> 0 /\ a <= t.
Definition time64 (a : Z) : Prop := 0 <= a < 2 ^ 64.
Lemma min_lower_l : forall a b t, time64 a -> time64 b -> lower a t -> lower (knot_time_min a b) t.
Proof.
  intros a b t Ha Hb (H1 & H2). unfold lower, knot_time_min, time64, w64 in *.
  destruct (Z.eqb_spec a 0), (Z.eqb_spec b 0); cbn [orb]; subst; try contradiction.
  - rewrite Z.add_0_r, Z.mod_small; lia.
  - destruct (a <? b) eqn:E; lia.
Qed.
Lemma min_lower_r : forall a b t, time64 a -> time64 b -> lower b t -> lower (knot_time_min a b) t.
Proof.
  intros a b t Ha Hb (H1 & H2). unfold lower, knot_time_min, time64, w64 in *.
  destruct (Z.eqb_spec a 0), (Z.eqb_spec b 0); cbn [orb]; subst; try contradiction.
  - rewrite Z.add_0_l, Z.mod_small; lia.
  - destruct (a <? b) eqn:E; lia.
Qed.
Lemma min_time64 : forall a b, time64 a -> time64 b -> time64 (knot_time_min a b).
Proof.
  intros a b Ha Hb. unfold knot_time_min, time64, w64 in *.
  destruct ((a =? 0) || (b =? 0)); [apply Z.mod_pos_bound; lia|]. destruct (a <? b); lia.
Qed.
Lemma w64_time64 : forall a, time64 (w64 a).
Proof. intros a. unfold time64, w64. apply Z.mod_pos_bound. lia. Qed.
Lemma from_u32_time64 : forall u now, time64 (knot_time_from_u32 u now).
Proof. intros u now. unfold knot_time_from_u32. cbv zeta. apply w64_time64. Qed.

(** *** One RRset *)
(** [claimed s e]: for key [k] the signature [s] is kept ([new = false]) or made, and it expires at [e] *)
Definition rf (c : sctx) : Z := w32 (c_refresh c + c_prerefresh c).
Definition claimed (c : sctx) (skip : bool) (r : rrs) (sigs : list sig) (k : skey) (s : sig) (new : bool) (e : Z) : Prop :=
  if new then valid_signature c k (rf c) skip r sigs = None /\ knot_sign_rrset c k r = Ok (s, e)
  else valid_signature c k (rf c) skip r sigs = Some s /\ e = knot_time_from_u32 (h_exp (s_hdr s)) (c_now c).
Definition used (k : skey) (r : rrs) : Prop := knot_zone_sign_use_key k r = Ok true.

Lemma claimed_fun : forall c skip r sigs k s1 n1 e1 s2 n2 e2,
  claimed c skip r sigs k s1 n1 e1 -> claimed c skip r sigs k s2 n2 e2 -> s1 = s2 /\ n1 = n2.
Proof.
  intros c skip r sigs k s1 n1 e1 s2 n2 e2 H1 H2. unfold claimed in *.
  destruct n1, n2; destruct H1 as (A1 & B1), H2 as (A2 & B2); rewrite A1 in A2; try discriminate.
  - rewrite B1 in B2. injection B2 as -> _. auto.
  - injection A2 as ->. auto.
Qed.
Lemma sign_time64 : forall c k r s e, knot_sign_rrset c k r = Ok (s, e) -> time64 e.
Proof.
  intros c k r s e H. unfold knot_sign_rrset in H. destruct (serial_compare _ _); try discriminate.
  match type of H with (let* v := ?f in _) = _ => destruct f; cbn [rbind] in H; try discriminate end.
  injection H as _ <-. apply w64_time64.
Qed.

Lemma missing_keys_spec : forall c skip r sigs keys x y, time64 (ch_expire x) ->
  missing_keys c skip r sigs keys x = Ok y ->
  (forall k, In k keys -> exists b, knot_zone_sign_use_key k r = Ok b) /\
  (forall k, In k keys -> used k r -> exists s n e, claimed c skip r sigs k s n e) /\
  (forall s, In s (ch_rem y) <-> In s (ch_rem x) /\ forall k e, In k keys -> used k r -> ~ claimed c skip r sigs k s false e) /\
  (forall s, In s (ch_add y) <-> In s (ch_add x) \/ exists k e, In k keys /\ used k r /\ claimed c skip r sigs k s true e) /\
  (forall t, lower (ch_expire x) t -> lower (ch_expire y) t) /\
  (forall k s n e, In k keys -> used k r -> claimed c skip r sigs k s n e -> e <> 0 -> lower (ch_expire y) e) /\
  (NoDup (ch_add x) -> NoDup (ch_add y)) /\ time64 (ch_expire y).
Proof.
  intros c skip r sigs. induction keys as [|k keys IH]; intros x y Hx H; cbn [missing_keys] in H.
  - injection H as <-. repeat match goal with |- _ /\ _ => split end; auto.
    + intros k [].
    + intros k [].
    + intros s. split; [|tauto]. intros Hs. split; [exact Hs|]. intros k e A; destruct A.
    + intros s. split; [auto|]. intros [Hs|(k & e & A & _)]; [exact Hs|destruct A].
    + intros k s n e [].
  - destruct (knot_zone_sign_use_key k r) as [b|?| |] eqn:Eu; cbn [rbind] in H; try discriminate.
    destruct b; cbn [negb] in H.
    + destruct (valid_signature c k (w32 (c_refresh c + c_prerefresh c)) skip r sigs) as [s0|] eqn:Ev.
      * set (x1 := mkch _ _ _ _) in H.
        assert (C0 : claimed c skip r sigs k s0 false (knot_time_from_u32 (h_exp (s_hdr s0)) (c_now c))) by (split; [exact Ev|reflexivity]).
        assert (T1 : time64 (ch_expire x1)) by (apply min_time64; [apply from_u32_time64|exact Hx]).
        destruct (IH x1 y T1 H) as (I1 & I2 & I3 & I4 & I5 & I6 & I7 & I8).
        repeat match goal with |- _ /\ _ => split end.
        -- intros k' [<-|Hk]; eauto.
        -- intros k' [<-|Hk] Hu; eauto.
        -- intros s. rewrite I3. unfold x1. cbn [ch_rem]. rewrite set_remove_in. split.
           ++ intros ((A & B) & C). split; auto. intros k' e [<-|Hk] Hu Hc; [|eapply C; eauto].
              destruct (claimed_fun _ _ _ _ _ _ _ _ _ _ _ Hc C0) as (-> & _). contradiction.
           ++ intros (A & B). split; [split; auto|].
              ** intros ->. eapply (B k); [left; reflexivity|exact Eu|exact C0].
              ** intros k' e Hk Hu. apply B; [right; exact Hk|exact Hu].
        -- intros s. rewrite I4. unfold x1. cbn [ch_add]. split.
           ++ intros [A|(k' & e & A & B & C)]; [auto|]. right. exists k', e. split; [right; exact A|auto].
           ++ intros [A|(k' & e & [<-|A] & B & C)]; [auto| |right; eauto].
              destruct (claimed_fun _ _ _ _ _ _ _ _ _ _ _ C C0) as (_ & X). discriminate.
        -- intros t Ht. apply I5. apply min_lower_r; [apply from_u32_time64|exact Hx|exact Ht].
        -- intros k' s n e [<-|Hk] Hu Hc He; [|eapply I6; eauto]. apply I5.
           assert (e = knot_time_from_u32 (h_exp (s_hdr s0)) (c_now c)) as ->.
           { destruct (claimed_fun _ _ _ _ _ _ _ _ _ _ _ Hc C0) as (-> & ->). exact (proj2 Hc). }
           apply min_lower_l; [apply from_u32_time64|exact Hx|]. split; [exact He|lia].
        -- intros Hd. apply I7. exact Hd.
        -- exact I8.
      * destruct (knot_sign_rrset c k r) as [(s0, e0)|?| |] eqn:Es; cbn [rbind] in H; try discriminate.
        set (x1 := mkch _ _ _ _) in H.
        assert (C0 : claimed c skip r sigs k s0 true e0) by (split; assumption).
        assert (Te : time64 e0) by (eapply sign_time64; exact Es).
        assert (T1 : time64 (ch_expire x1)) by (apply min_time64; [exact Hx|exact Te]).
        destruct (IH x1 y T1 H) as (I1 & I2 & I3 & I4 & I5 & I6 & I7 & I8).
        repeat match goal with |- _ /\ _ => split end.
        -- intros k' [<-|Hk]; eauto.
        -- intros k' [<-|Hk] Hu; eauto.
        -- intros s. rewrite I3. unfold x1. cbn [ch_rem]. split.
           ++ intros (A & C). split; auto. intros k' e [<-|Hk] Hu Hc; [|eapply C; eauto].
              destruct (claimed_fun _ _ _ _ _ _ _ _ _ _ _ Hc C0) as (_ & X). discriminate.
           ++ intros (A & B). split; [exact A|]. intros k' e Hk Hu. apply B; [right; exact Hk|exact Hu].
        -- intros s. rewrite I4. unfold x1. cbn [ch_add]. rewrite set_add_in. split.
           ++ intros [[A| ->]|(k' & e & A & B & C)]; [auto|right; exists k, e0; split; [left; reflexivity|split; [exact Eu|exact C0]]|].
              right. exists k', e. split; [right; exact A|auto].
           ++ intros [A|(k' & e & [<-|A] & B & C)]; [auto| |right; eauto].
              left. right. destruct (claimed_fun _ _ _ _ _ _ _ _ _ _ _ C C0) as (X & _). exact X.
        -- intros t Ht. apply I5. apply min_lower_l; [exact Hx|exact Te|exact Ht].
        -- intros k' s n e [<-|Hk] Hu Hc He; [|eapply I6; eauto]. apply I5.
           assert (e = e0) as ->.
           { destruct (claimed_fun _ _ _ _ _ _ _ _ _ _ _ Hc C0) as (-> & ->). destruct Hc as (_ & Hc). rewrite Es in Hc. injection Hc as ->. reflexivity. }
           apply min_lower_r; [exact Hx|exact Te|]. split; [exact He|lia].
        -- intros Hd. apply I7. apply set_add_nodup. exact Hd.
        -- exact I8.
    + destruct (IH x y Hx H) as (I1 & I2 & I3 & I4 & I5 & I6 & I7 & I8).
      assert (N : ~ used k r) by (unfold used; rewrite Eu; discriminate).
      repeat match goal with |- _ /\ _ => split end; auto.
      * intros k' [<-|Hk]; eauto.
      * intros k' [<-|Hk] Hu; [contradiction|eauto].
      * intros s. rewrite I3. split; intros (A & B); (split; [exact A|]); intros k' e Hk Hu.
        -- destruct Hk as [<-|Hk]; [contradiction|]. apply B; auto.
        -- apply B; [right; exact Hk|exact Hu].
      * intros s. rewrite I4. split.
        -- intros [A|(k' & e & A & B & C)]; [auto|]. right. exists k', e. split; [right; exact A|auto].
        -- intros [A|(k' & e & [<-|A] & B & C)]; [auto|contradiction|right; eauto].
      * intros k' s n e [<-|Hk] Hu Hc He; [contradiction|eapply I6; eauto].
Qed.

(** The signatures that count as existing *)
Definition eff (c : sctx) (nd : node) : list sig := if c_drop c then [] else n_sigs nd.
Definition eskip (c : sctx) (nd : node) : bool := if c_drop c then false else skip_crypto c nd.
Definition claims (c : sctx) (nd : node) (r : rrs) (k : skey) (s : sig) (new : bool) (e : Z) : Prop :=
  claimed c (eskip c nd) r (eff c nd) k s new e.

Lemma sign_rrset_spec : forall c keys nd r y, sign_rrset c keys nd r = Ok y -> should_be_signed nd r = true ->
  (forall k, In k keys -> exists b, knot_zone_sign_use_key k r = Ok b) /\
  (forall k, In k keys -> used k r -> exists s n e, claims c nd r k s n e) /\
  (forall s, In s (ch_rem y) <-> (In s (n_sigs nd) /\ s_type s = r_type r) /\ forall k e, In k keys -> used k r -> ~ claims c nd r k s false e) /\
  (forall s, In s (ch_add y) <-> exists k e, In k keys /\ used k r /\ claims c nd r k s true e) /\
  (forall k s n e, In k keys -> used k r -> claims c nd r k s n e -> e <> 0 -> lower (ch_expire y) e) /\ time64 (ch_expire y).
Proof.
  intros c keys nd r y H Hs. unfold sign_rrset in H. rewrite Hs in H. cbn [negb] in H.
  unfold claims, eff, eskip. destruct (c_drop c).
  - unfold force_resign_rrset, add_missing_rrsigs in H.
    destruct (missing_keys _ _ _ _ _ _) as [x|?| |] eqn:Em; cbn [rbind] in H; try discriminate. injection H as <-.
    apply missing_keys_spec in Em; [|cbv; split; [discriminate|reflexivity]]. destruct Em as (I1 & I2 & I3 & I4 & I5 & I6 & I7 & I8). cbn [ch_join remove_rrset_rrsigs ch_rem ch_add ch_expire synth_rrsig filter] in *.
    assert (N : ch_rem x = []). { destruct (ch_rem x) as [|a l] eqn:E; auto. exfalso. apply (proj1 (I3 a)). left. reflexivity. }
    repeat match goal with |- _ /\ _ => split end; auto.
    + intros s. rewrite N, app_nil_r. rewrite (synth_in (r_type r) (n_sigs nd) s). split; [|tauto]. intros A. split; auto.
      intros k e _ _ (B & _). discriminate.
    + intros s. rewrite fold_add_in, I4. cbn [In]. intuition.
    + intros k s n e Hk Hu Hc He. apply min_lower_r; [cbv; split; [discriminate|reflexivity]|exact I8|]. eapply I6; eauto.
    + apply min_time64; [cbv; split; [discriminate|reflexivity]|exact I8].
  - unfold add_missing_rrsigs in H. apply missing_keys_spec in H; [|cbv; split; [discriminate|reflexivity]].
    destruct H as (I1 & I2 & I3 & I4 & I5 & I6 & I7 & I8). cbn [ch_rem ch_add ch_expire] in *.
    repeat match goal with |- _ /\ _ => split end; auto.
    + intros s. rewrite I3, synth_in. tauto.
    + intros s. rewrite I4. cbn [In]. intuition.
Qed.

Lemma sign_rrsets_spec : forall c keys nd rs x y, time64 (ch_expire x) -> sign_rrsets c keys nd rs x = Ok y ->
  (forall r, In r rs -> exists z, sign_rrset c keys nd r = Ok z) /\
  (forall s, In s (ch_rem y) <-> In s (ch_rem x) \/ exists r z, In r rs /\ sign_rrset c keys nd r = Ok z /\ In s (ch_rem z)) /\
  (forall s, In s (ch_add y) <-> In s (ch_add x) \/ exists r z, In r rs /\ sign_rrset c keys nd r = Ok z /\ In s (ch_add z)) /\
  (forall t, lower (ch_expire x) t -> lower (ch_expire y) t) /\
  (forall r z t, In r rs -> sign_rrset c keys nd r = Ok z -> lower (ch_expire z) t -> lower (ch_expire y) t) /\ time64 (ch_expire y).
Proof.
  intros c keys nd. induction rs as [|r rs IH]; intros x y Hx H; cbn [sign_rrsets] in H.
  - injection H as <-. repeat match goal with |- _ /\ _ => split end; auto.
    + intros r [].
    + intros s. split; [auto|]. intros [A|(r & z & B & _)]; [exact A|destruct B].
    + intros s. split; [auto|]. intros [A|(r & z & B & _)]; [exact A|destruct B].
    + intros r z t [].
  - destruct (sign_rrset c keys nd r) as [z0|?| |] eqn:Ez; cbn [rbind] in H; try discriminate.
    assert (T0 : time64 (ch_expire z0)).
    { destruct (should_be_signed nd r) eqn:Es; [eapply sign_rrset_spec; eassumption|].
      unfold sign_rrset in Ez. rewrite Es in Ez. cbn [negb] in Ez. injection Ez as <-. cbv. split; [discriminate|reflexivity]. }
    assert (T1 : time64 (ch_expire (ch_join x z0))) by (apply min_time64; assumption).
    destruct (IH _ y T1 H) as (I1 & I2 & I3 & I4 & I5 & I6).
    repeat match goal with |- _ /\ _ => split end; auto.
    + intros r' [<-|Hr]; eauto.
    + intros s. rewrite I2. cbn [ch_join ch_rem]. rewrite in_app_iff. split.
      * intros [[A|A]|(r' & z & A & B & C)]; [auto|right; exists r, z0; split; [left; reflexivity|auto]|right; exists r', z; split; [right; exact A|auto]].
      * intros [A|(r' & z & [<-|A] & B & C)]; [auto| |right; eauto]. rewrite Ez in B. injection B as ->. auto.
    + intros s. rewrite I3. cbn [ch_join ch_add]. rewrite fold_add_in. split.
      * intros [[A|A]|(r' & z & A & B & C)]; [auto|right; exists r, z0; split; [left; reflexivity|auto]|right; exists r', z; split; [right; exact A|auto]].
      * intros [A|(r' & z & [<-|A] & B & C)]; [auto| |right; eauto]. rewrite Ez in B. injection B as ->. auto.
    + intros t Ht. apply I4. apply min_lower_l; assumption.
    + intros r' z t [<-|Hr] Hz Ht; [|eapply I5; eauto]. rewrite Ez in Hz. injection Hz as ->. apply I4. apply min_lower_r; assumption.
Qed.

Lemma same_type : forall (rs : list rrs) a b, NoDup (map r_type rs) -> In a rs -> In b rs -> r_type a = r_type b -> a = b.
Proof.
  induction rs as [|r rs IH]; intros a b Hd Ha Hb E; [contradiction|]. cbn [map] in Hd. inversion Hd as [|t l N D]; subst.
  destruct Ha as [<-|Ha], Hb as [<-|Hb]; auto.
  - exfalso. apply N. rewrite E. apply in_map. exact Hb.
  - exfalso. apply N. rewrite <- E. apply in_map. exact Ha.
Qed.

Lemma valid_in : forall c k m skip r sigs s, valid_signature c k m skip r sigs = Some s ->
  In s sigs /\ matches k r s = true /\ knot_check_signature c k m skip r s = true.
Proof.
  intros c k m skip r sigs s H. unfold valid_signature in H. apply find_some in H. destruct H as (A & B).
  apply andb_true_iff in B. tauto.
Qed.
Lemma sign_type : forall c k r s e, knot_sign_rrset c k r = Ok (s, e) -> s_type s = r_type r.
Proof.
  intros c k r s e H. unfold knot_sign_rrset in H. destruct (serial_compare _ _); try discriminate.
  match type of H with (let* v := ?f in _) = _ => destruct f; cbn [rbind] in H; try discriminate end.
  injection H as <- _. reflexivity.
Qed.
Lemma claims_type : forall c nd r k s n e, claims c nd r k s n e -> s_type s = r_type r /\ (n = false -> In s (n_sigs nd)).
Proof.
  intros c nd r k s n e H. unfold claims, claimed in H. destruct n; destruct H as (A & B).
  - split; [eapply sign_type; exact B|discriminate].
  - apply valid_in in A. destruct A as (A & M & _). apply matches_names in M. destruct M as (_ & _ & M). split; [exact M|].
    intros _. unfold eff in A. destruct (c_drop c); [contradiction|exact A].
Qed.

(** The signatures of a node after signing are those claimed for a key in use *)
Lemma after_iff : forall c keys nd x, node_ok nd -> sign_node_rrsets c keys nd = Ok x ->
  (forall s, In s (n_sigs (apply_node nd x)) <->
     exists r k n e, In r (n_rrs nd) /\ should_be_signed nd r = true /\ In k keys /\ used k r /\ claims c nd r k s n e) /\
  (forall r k, In r (n_rrs nd) -> should_be_signed nd r = true -> In k keys ->
     (exists b, knot_zone_sign_use_key k r = Ok b) /\ (used k r -> exists s n e, claims c nd r k s n e)) /\
  (forall r k s n e, In r (n_rrs nd) -> should_be_signed nd r = true -> In k keys -> used k r -> claims c nd r k s n e -> e <> 0 -> lower (ch_expire x) e) /\
  (forall s, In s (ch_add x) <-> exists r k e, In r (n_rrs nd) /\ should_be_signed nd r = true /\ In k keys /\ used k r /\ claims c nd r k s true e) /\
  NoDup (n_sigs (apply_node nd x)) /\ time64 (ch_expire x).
Proof.
  intros c keys nd x (Hd & Hn & H46) H. unfold sign_node_rrsets in H.
  destruct (sign_rrsets c keys nd (n_rrs nd) ch_empty) as [y|?| |] eqn:Ey; cbn [rbind] in H; try discriminate. injection H as <-.
  apply sign_rrsets_spec in Ey; [|cbv; split; [discriminate|reflexivity]]. destruct Ey as (I1 & I2 & I3 & I4 & I5 & I6).
  assert (RE : forall s, In s (ch_rem (ch_join (ch_join y (remove_rrset_rrsigs T_RRSIG (n_sigs nd))) (remove_standalone_rrsigs nd))) <->
     In s (ch_rem y) \/ (In s (n_sigs nd) /\ (s_type s = T_RRSIG \/ ~ exists r, In r (n_rrs nd) /\ r_type r = s_type s))).
  { intros s. cbn [ch_join ch_rem remove_rrset_rrsigs remove_standalone_rrsigs]. rewrite !in_app_iff, synth_in, filter_In, negb_true_iff, orb_false_iff, Z.eqb_neq.
    assert (X : existsb (fun r => r_type r =? s_type s) (n_rrs nd) = false <-> ~ exists r, In r (n_rrs nd) /\ r_type r = s_type s).
    { split.
      - intros A (r & B & C). enough (existsb (fun r => r_type r =? s_type s) (n_rrs nd) = true) by congruence.
        apply existsb_exists. exists r. split; [exact B|]. apply Z.eqb_eq. exact C.
      - intros A. destruct (existsb _ _) eqn:E; auto. exfalso. apply A. apply existsb_exists in E. destruct E as (r & B & C). exists r. split; [exact B|]. apply Z.eqb_eq. exact C. }
    rewrite X. destruct (Z.eq_dec (s_type s) T_RRSIG); tauto. }
  set (xx := ch_join _ _) in *.
  assert (AE : ch_add xx = ch_add y) by reflexivity.
  assert (NR : forall r s, In r (n_rrs nd) -> In s (ch_rem xx) -> s_type s = r_type r -> should_be_signed nd r = true ->
     forall k e, In k keys -> used k r -> ~ claims c nd r k s false e).
  { intros r s Hr Hs Et Hsh. apply RE in Hs. destruct Hs as [Hs|(_ & [Hs|Hs])].
    - apply I2 in Hs. destruct Hs as [[]|(r' & z & A & B & C)].
      destruct (should_be_signed nd r') eqn:E'.
      + destruct (sign_rrset_spec _ _ _ _ _ B E') as (_ & _ & J & _). apply J in C. destruct C as ((_ & T) & C).
        assert (r' = r) as -> by (eapply same_type; eauto; congruence). exact C.
      + assert (r' = r) as ->; [|congruence]. eapply same_type; eauto.
        unfold sign_rrset in B. rewrite E' in B. cbn [negb] in B. injection B as <-. cbn [remove_rrset_rrsigs ch_rem] in C. apply synth_in in C. destruct C as (_ & C). congruence.
    - exfalso. apply (H46 r Hr). unfold T_RRSIG in Hs. congruence.
    - exfalso. apply Hs. exists r. split; [exact Hr|congruence]. }
  repeat match goal with |- _ /\ _ => split end.
  - intros s. unfold apply_node. cbn [n_sigs]. rewrite fold_add_in, filter_In, negb_true_iff, AE.
    assert (SF : sig_in s (ch_rem xx) = false <-> ~ In s (ch_rem xx)).
    { rewrite <- sig_in_iff. destruct (sig_in s (ch_rem xx)); split; intros A; congruence. }
    rewrite SF. split.
    + intros [(A & B)|A].
      * destruct (existsb (fun r => r_type r =? s_type s) (n_rrs nd)) eqn:E.
        2: { exfalso. apply B. apply RE. right. split; [exact A|]. right. intros (r & X & Y).
             enough (existsb (fun r => r_type r =? s_type s) (n_rrs nd) = true) by congruence. apply existsb_exists. exists r. split; [exact X|]. apply Z.eqb_eq. exact Y. }
        apply existsb_exists in E. destruct E as (r & Hr & Et). apply Z.eqb_eq in Et.
        destruct (I1 r Hr) as (z & Hz).
        destruct (should_be_signed nd r) eqn:Es.
        -- destruct (sign_rrset_spec _ _ _ _ _ Hz Es) as (U & _ & J & _).
           assert (NN : ~ In s (ch_rem z)). { intros X. apply B. apply RE. left. apply I2. right. eauto. }
           rewrite J in NN.
           assert (D : forall ks, incl ks keys -> (exists k, In k ks /\ used k r /\ valid_signature c k (rf c) (eskip c nd) r (eff c nd) = Some s) \/
                       forall k e, In k ks -> used k r -> ~ claims c nd r k s false e).
           { induction ks as [|k ks IH]; intros Hi; [right; intros k e []|].
             destruct IH as [(k' & X & Y)|X]; [intros ? ?; apply Hi; right; assumption|left; exists k'; split; [right; exact X|exact Y]|].
             destruct (U k (Hi k (or_introl eq_refl))) as (b & Hb).
             destruct b.
             - destruct (valid_signature c k (rf c) (eskip c nd) r (eff c nd)) as [s'|] eqn:Ev.
               + destruct (sig_eq_dec s' s) as [->|N].
                 * left. exists k. split; [left; reflexivity|split; [exact Hb|exact Ev]].
                 * right. intros k' e [<-|Hk] Hu Hc; [destruct Hc as (P & _); rewrite Ev in P; congruence|eapply X; eauto].
               + right. intros k' e [<-|Hk] Hu Hc; [destruct Hc as (P & _); rewrite Ev in P; discriminate|eapply X; eauto].
             - right. intros k' e [<-|Hk] Hu Hc; [unfold used in Hu; congruence|eapply X; eauto]. }
           destruct (D keys (incl_refl _)) as [(k & X & Y & Z0)|X].
           ++ exists r, k, false, (knot_time_from_u32 (h_exp (s_hdr s)) (c_now c)).
              repeat match goal with |- _ /\ _ => split end; auto. split; [exact Z0|reflexivity].
           ++ exfalso. apply NN. split; [split; [exact A|congruence]|exact X].
        -- exfalso. apply B. apply RE. left. apply I2. right. exists r, z. split; [exact Hr|split; [exact Hz|]].
           unfold sign_rrset in Hz. rewrite Es in Hz. cbn [negb] in Hz. injection Hz as <-. cbn [remove_rrset_rrsigs ch_rem]. apply synth_in. split; [exact A|congruence].
      * apply I3 in A. destruct A as [[]|(r & z & Hr & Hz & A)].
        destruct (should_be_signed nd r) eqn:Es.
        -- destruct (sign_rrset_spec _ _ _ _ _ Hz Es) as (_ & _ & _ & J & _). apply J in A. destruct A as (k & e & Hk & Hu & Hc).
           exists r, k, true, e. auto.
        -- unfold sign_rrset in Hz. rewrite Es in Hz. cbn [negb] in Hz. injection Hz as <-. destruct A.
    + intros (r & k & n & e & Hr & Hs & Hk & Hu & Hc). destruct (claims_type _ _ _ _ _ _ _ Hc) as (Et & Hin). destruct n.
      * right. apply I3. right. destruct (I1 r Hr) as (z & Hz). exists r, z. split; [exact Hr|split; [exact Hz|]].
        destruct (sign_rrset_spec _ _ _ _ _ Hz Hs) as (_ & _ & _ & J & _). apply J. eauto.
      * left. split; [auto|]. intros X. eapply NR; eauto.
  - intros r k Hr Hs Hk. destruct (I1 r Hr) as (z & Hz). destruct (sign_rrset_spec _ _ _ _ _ Hz Hs) as (U & V & _). split; auto.
  - intros r k s n e Hr Hs Hk Hu Hc He. destruct (I1 r Hr) as (z & Hz). destruct (sign_rrset_spec _ _ _ _ _ Hz Hs) as (_ & _ & _ & _ & J & _).
    cbn [xx ch_join ch_expire remove_rrset_rrsigs remove_standalone_rrsigs].
    assert (T0 : time64 0) by (cbv; split; [discriminate|reflexivity]).
    apply min_lower_l; [apply min_time64; auto|exact T0|]. apply min_lower_l; [exact I6|exact T0|].
    eapply I5; eauto.
  - intros s. rewrite AE, I3. cbn [ch_empty ch_add In]. split.
    + intros [[]|(r & z & Hr & Hz & A)]. destruct (should_be_signed nd r) eqn:Es.
      * destruct (sign_rrset_spec _ _ _ _ _ Hz Es) as (_ & _ & _ & J & _). apply J in A. destruct A as (k & e & Hk & Hu & Hc).
        exists r, k, e. auto.
      * unfold sign_rrset in Hz. rewrite Es in Hz. cbn [negb] in Hz. injection Hz as <-. destruct A.
    + intros (r & k & e & Hr & Hs & Hk & Hu & Hc). right. destruct (I1 r Hr) as (z & Hz). exists r, z. split; [exact Hr|split; [exact Hz|]].
      destruct (sign_rrset_spec _ _ _ _ _ Hz Hs) as (_ & _ & _ & J & _). apply J. eauto.
  - unfold apply_node. cbn [n_sigs]. apply fold_add_nodup. apply NoDup_filter. exact Hn.
  - cbn [xx ch_join ch_expire remove_rrset_rrsigs remove_standalone_rrsigs].
    assert (T0 : time64 0) by (cbv; split; [discriminate|reflexivity]). apply min_time64; [apply min_time64; auto|exact T0].
Qed.
