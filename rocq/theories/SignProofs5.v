(** Proofs about the validation of signatures. *)
From Verif Require Import Base SerialModel KeyModel SignModel SignSpec SignProofs SignProofs2 SignProofs3.

(** *** uint8_t of the map: the top bit and a count *)
Lemma lor128 : forall v, 0 <= v < 256 -> Z.lor v 128 = 128 + v mod 128.
Proof.
  assert (G : forallb (fun n => Z.lor (Z.of_nat n) 128 =? 128 + Z.of_nat n mod 128) (seq 0 256) = true) by (vm_compute; reflexivity).
  intros v Hv. rewrite forallb_forall in G. specialize (G (Z.to_nat v)). rewrite Z2Nat.id in G by lia. apply Z.eqb_eq. apply G. apply in_seq. lia.
Qed.
Lemma land127 : forall v, Z.land v 127 = v mod 128.
Proof. intros v. replace 127 with (Z.ones 7) by reflexivity. rewrite Z.land_ones by lia. reflexivity. Qed.

Definition acc (c : sctx) (skip : bool) (r : rrs) (k : skey) (s : sig) : bool := matches k r s && knot_check_signature c k 0 skip r s.
Definition rej (c : sctx) (skip : bool) (r : rrs) (k : skey) (s : sig) : bool := matches k r s && negb (knot_check_signature c k 0 skip r s).
Definition b2z (b : bool) : Z := if b then 1 else 0.

(** [m'] follows [m] after one key *)
Inductive steps (c : sctx) (skip : bool) (r : rrs) (k : skey) : list sig -> list Z -> list Z -> Prop :=
| steps_nil : steps c skip r k [] [] []
| steps_cons : forall s sigs v m v' m', steps c skip r k sigs m m' ->
    v' mod 128 = v mod 128 + b2z (rej c skip r k s) -> (128 <= v' <-> 128 <= v \/ acc c skip r k s = true) -> 0 <= v' < 256 ->
    steps c skip r k (s :: sigs) (v :: m) (v' :: m').
Definition limited (m : list Z) : Prop := Exists (fun v => 3 <= v mod 128) m.
Definition below (n : Z) (m : list Z) : Prop := Forall (fun v => 0 <= v < 256 /\ v mod 128 <= n) m.

Lemma map_step : forall c k skip r n sigs m f m' f', 0 <= n <= 126 -> length m = length sigs -> below n m ->
  valid_signature_map c k skip r sigs m f = (m', f') ->
  length m' = length sigs /\ below (n + 1) m' /\ (limited m -> limited m') /\
  (limited m' \/ (steps c skip r k sigs m m' /\ ((exists s, f' = Some s) <-> (exists s, f = Some s) \/ exists s, In s sigs /\ acc c skip r k s = true) /\
                 (forall s, f' = Some s -> f = Some s \/ (In s sigs /\ acc c skip r k s = true)))).
Proof.
  intros c k skip r n. induction sigs as [|s sigs IH]; intros m f m' f' Hn Hl Hb H.
  - destruct m; [|discriminate]. cbn in H. injection H as <- <-. split; [reflexivity|split; [constructor|split; [auto|]]]. right.
    split; [constructor|split; [|auto]]. split; [auto|]. intros [A|(s & [] & _)]. exact A.
  - destruct m as [|v m]; [discriminate|]. injection Hl as Hl. inversion Hb as [|a l (B1 & B2) B3]; subst.
    cbn [valid_signature_map] in H.
    assert (MD : 0 <= v mod 128 < 128) by (apply Z.mod_pos_bound; lia).
    destruct (matches k r s) eqn:Em; cbn [negb] in H.
    + destruct (knot_check_signature c k 0 skip r s) eqn:Ec.
      * destruct (valid_signature_map c k skip r sigs m (Some s)) as (m1, f1) eqn:E. injection H as <- <-.
        destruct (IH m (Some s) m1 f1 Hn Hl B3 E) as (I1 & I2 & I3 & I4). unfold VALID_SIG_FOUND. rewrite lor128 by lia.
        split; [cbn [length]; lia|]. split; [constructor; [lia|exact I2]|]. split.
        -- intros L. inversion L as [a l X|a l X]; subst; [left; lia|right; apply I3; exact X].
        -- destruct I4 as [L|(S1 & S2 & S3)]; [left; right; exact L|right].
           assert (Ea : acc c skip r k s = true) by (unfold acc; rewrite Em, Ec; reflexivity).
           split; [constructor; auto; [unfold rej; rewrite Em, Ec; cbn [andb negb b2z]; lia|split; [intros _; right; exact Ea|lia]|lia]|].
           split.
           ++ rewrite S2. split; intros _; [right; exists s; split; [left; reflexivity|exact Ea]|left; eauto].
           ++ intros s' Hs'. destruct (S3 s' Hs') as [X|(X & Y)]; [injection X as <-; right; split; [left; reflexivity|exact Ea]|right; split; [right; exact X|exact Y]].
      * assert (U : u8 (v + 1) = v + 1 \/ v = 255) by (unfold u8; lia). destruct U as [U|U]; [|lia].
        assert (MV : (v + 1) mod 128 = v mod 128 + 1) by lia.
        rewrite U in H. unfold VALID_SIG_FOUND in H. change (255 - 128) with 127 in H. rewrite land127 in H. unfold VALID_KEYTAG_LIMIT in H.
        destruct ((v + 1) mod 128 =? 3) eqn:E3.
        -- injection H as <- <-. split; [cbn [length]; lia|]. split; [constructor; [lia|]|split].
           ++ eapply Forall_impl; [|exact B3]. cbn beta. intros a Ha. lia.
           ++ intros L. left. lia.
           ++ left. left. lia.
        -- destruct (valid_signature_map c k skip r sigs m f) as (m1, f1) eqn:E. injection H as <- <-.
           destruct (IH m f m1 f1 Hn Hl B3 E) as (I1 & I2 & I3 & I4).
           assert (Ea : acc c skip r k s = false) by (unfold acc; rewrite Em, Ec; reflexivity).
           split; [cbn [length]; lia|]. split; [constructor; [lia|exact I2]|]. split.
           ++ intros L. inversion L as [a l X|a l X]; subst; [left; lia|right; apply I3; exact X].
           ++ destruct I4 as [L|(S1 & S2 & S3)]; [left; right; exact L|right].
              split; [constructor; auto; [unfold rej; rewrite Em, Ec; cbn [andb negb b2z]; lia|rewrite Ea; split; [intros; left; lia|intros [X|X]; [lia|discriminate]]|lia]|].
              split.
              ** rewrite S2. split; (intros [X|(s' & X & Y)]; [auto|]).
                 --- right. exists s'. split; [right; exact X|exact Y].
                 --- destruct X as [<-|X]; [congruence|right; eauto].
              ** intros s' Hs'. destruct (S3 s' Hs') as [X|(X & Y)]; [auto|right; split; [right; exact X|exact Y]].
    + destruct (valid_signature_map c k skip r sigs m f) as (m1, f1) eqn:E. injection H as <- <-.
      destruct (IH m f m1 f1 Hn Hl B3 E) as (I1 & I2 & I3 & I4).
      assert (Ea : acc c skip r k s = false) by (unfold acc; rewrite Em; reflexivity).
      split; [cbn [length]; lia|]. split; [constructor; [lia|exact I2]|]. split.
      * intros L. inversion L as [a l X|a l X]; subst; [left; lia|right; apply I3; exact X].
      * destruct I4 as [L|(S1 & S2 & S3)]; [left; right; exact L|right].
        split; [constructor; auto; [unfold rej; rewrite Em; cbn [andb negb b2z]; lia|rewrite Ea; split; [auto|intros [X|X]; [exact X|discriminate]]]|].
        split.
        -- rewrite S2. split; (intros [X|(s' & X & Y)]; [auto|]).
           ++ right. exists s'. split; [right; exact X|exact Y].
           ++ destruct X as [<-|X]; [congruence|right; eauto].
        -- intros s' Hs'. destruct (S3 s' Hs') as [X|(X & Y)]; [auto|right; split; [right; exact X|exact Y]].
Qed.

(** [m] is the map after the keys [done] *)
Definition fails (c : sctx) (skip : bool) (r : rrs) (done : list skey) (s : sig) : Z := Z.of_nat (length (filter (fun k => rej c skip r k s) done)).
Inductive exact (c : sctx) (skip : bool) (r : rrs) (done : list skey) : list sig -> list Z -> Prop :=
| exact_nil : exact c skip r done [] []
| exact_cons : forall s sigs v m, exact c skip r done sigs m -> v mod 128 = fails c skip r done s ->
    (128 <= v <-> existsb (fun k => acc c skip r k s) done = true) -> 0 <= v < 256 -> exact c skip r done (s :: sigs) (v :: m).
Lemma exact_step : forall c skip r done k sigs m m', exact c skip r done sigs m -> steps c skip r k sigs m m' -> exact c skip r (done ++ [k]) sigs m'.
Proof.
  intros c skip r done k sigs m m' He Hs. revert He. induction Hs as [|s sigs v m v' m' Hs IH H1 H2 H3]; intros He; inversion He as [|s0 l v0 m0 E1 E2 E3 E4]; subst; constructor; auto.
  - rewrite H1, E2. unfold fails. rewrite filter_app, app_length. cbn [filter]. unfold b2z. destruct (rej c skip r k s); cbn [length]; lia.
  - rewrite H2, E3, existsb_app, orb_true_iff. cbn [existsb]. rewrite orb_false_r. tauto.
Qed.
Lemma exact_zero : forall c skip r sigs, exact c skip r [] sigs (map (fun _ => 0) sigs).
Proof. intros c skip r. induction sigs as [|s sigs IH]; cbn [map]; constructor; auto; cbn; [split; [lia|discriminate]|lia]. Qed.

Definition reading (c : sctx) (s : sig) : Z := knot_time_from_u32 (h_exp (s_hdr s)) (c_now c).
Definition under (c : sctx) (skip : bool) (r : rrs) (done : list skey) (sigs : list sig) (m : list Z) : Prop :=
  Forall2 (fun s v => v mod 128 <= fails c skip r done s) sigs m.
Lemma fails_snoc : forall c skip r done k s, fails c skip r (done ++ [k]) s = fails c skip r done s + b2z (rej c skip r k s).
Proof. intros. unfold fails. rewrite filter_app, app_length. cbn [filter]. unfold b2z. destruct (rej c skip r k s); cbn [length]; lia. Qed.
Lemma under_snoc : forall c skip r done k sigs m, under c skip r done sigs m -> under c skip r (done ++ [k]) sigs m.
Proof.
  intros c skip r done k sigs m H. unfold under in *. induction H; constructor; auto. rewrite fails_snoc. unfold b2z. destruct (rej _ _ _ _ _); lia.
Qed.
Lemma map_under : forall c k skip r n done sigs m f m' f', 0 <= n <= 126 -> below n m -> under c skip r done sigs m ->
  valid_signature_map c k skip r sigs m f = (m', f') -> under c skip r (done ++ [k]) sigs m'.
Proof.
  intros c k skip r n done. induction sigs as [|s sigs IH]; intros m f m' f' Hn Hb Hu H; inversion Hu as [|s0 v sigs0 m0 U1 U2]; subst.
  - cbn in H. injection H as <- <-. constructor.
  - inversion Hb as [|a l (B1 & B2) B3]; subst. cbn [valid_signature_map] in H. pose proof (fails_snoc c skip r done k s) as F.
    assert (MD : 0 <= v mod 128 < 128) by (apply Z.mod_pos_bound; lia).
    destruct (matches k r s) eqn:Em; cbn [negb] in H.
    + destruct (knot_check_signature c k 0 skip r s) eqn:Ec.
      * destruct (valid_signature_map c k skip r sigs m0 (Some s)) as (m1, f1) eqn:E. injection H as <- <-. constructor; [|eapply IH; eauto].
        unfold VALID_SIG_FOUND. rewrite lor128, F by lia. unfold b2z. destruct (rej _ _ _ _ _); lia.
      * assert (Er : rej c skip r k s = true) by (unfold rej; rewrite Em, Ec; reflexivity). rewrite Er in F. cbn [b2z] in F.
        assert (U : u8 (v + 1) mod 128 = v mod 128 + 1) by (unfold u8; lia).
        destruct (_ =? _); [injection H as <- <-; constructor; [lia|apply under_snoc; exact U2]|].
        destruct (valid_signature_map c k skip r sigs m0 f) as (m1, f1) eqn:E. injection H as <- <-. constructor; [lia|eapply IH; eauto].
    + destruct (valid_signature_map c k skip r sigs m0 f) as (m1, f1) eqn:E. injection H as <- <-. constructor; [|eapply IH; eauto].
      rewrite F. unfold b2z. destruct (rej _ _ _ _ _); lia.
Qed.
Definition inv (c : sctx) (skip : bool) (r : rrs) (sigs : list sig) (done : list skey) (m : list Z) (valid : bool) (until : Z) : Prop :=
  exact c skip r done sigs m /\ (valid = true <-> exists k s, In k done /\ In s sigs /\ acc c skip r k s = true) /\
  (valid = true -> exists k s, In k done /\ In s sigs /\ acc c skip r k s = true /\ (reading c s <> 0 -> lower until (reading c s))).
Lemma validate_keys_inv : forall c skip r sigs keys done m valid until m' valid' until',
  Z.of_nat (length done + length keys) <= 127 -> length m = length sigs -> below (Z.of_nat (length done)) m ->
  (limited m \/ inv c skip r sigs done m valid until) -> under c skip r done sigs m -> time64 until ->
  validate_keys c skip r sigs keys m valid until = (m', valid', until') ->
  length m' = length sigs /\ below 127 m' /\ under c skip r (done ++ filter (fun k => key_used c k r) keys) sigs m' /\ time64 until' /\
  (limited m' \/ inv c skip r sigs (done ++ filter (fun k => key_used c k r) keys) m' valid' until').
Proof.
  intros c skip r sigs. induction keys as [|k keys IH]; intros done m valid until m' valid' until' Hn Hl Hb Hi Hun Ht H; cbn [validate_keys] in H.
  - injection H as <- <- <-. cbn [filter]. rewrite app_nil_r. split; [exact Hl|]. split; [|split; [exact Hun|split; [exact Ht|exact Hi]]].
    eapply Forall_impl; [|exact Hb]. cbn beta. cbn [length] in Hn. intros a Ha. lia.
  - cbn [length] in Hn. cbn [filter]. destruct (key_used c k r) eqn:Eu; cbn [negb] in H.
    + destruct (valid_signature_map c k skip r sigs m None) as (m1, f1) eqn:Em.
      destruct (map_step c k skip r (Z.of_nat (length done)) sigs m None m1 f1) as (S1 & S2 & S3 & S4); [lia|exact Hl|exact Hb|exact Em|].
      pose proof (map_under c k skip r (Z.of_nat (length done)) done sigs m None m1 f1 ltac:(lia) Hb Hun Em) as Su.
      replace (done ++ k :: filter (fun k => key_used c k r) keys) with ((done ++ [k]) ++ filter (fun k => key_used c k r) keys) by (rewrite <- app_assoc; reflexivity).
      assert (Sb : below (Z.of_nat (length (done ++ [k]))) m1). { rewrite app_length. cbn [length]. replace (Z.of_nat (length done + 1)) with (Z.of_nat (length done) + 1) by lia. exact S2. }
      assert (Sn : Z.of_nat (length (done ++ [k]) + length keys) <= 127) by (rewrite app_length; cbn [length]; lia).
      destruct f1 as [s1|].
      * eapply IH; [exact Sn|exact S1|exact Sb| |exact Su| |exact H]; [|apply min_time64; [apply from_u32_time64|exact Ht]].
        destruct Hi as [L|(A & B & C)]; [left; auto|]. destruct S4 as [L|(P1 & P2 & P3)]; [left; exact L|right].
        destruct (P3 s1 eq_refl) as [X|(X1 & X2)]; [discriminate|].
        split; [eapply exact_step; eassumption|]. split.
        -- split; [|auto]. intros _. exists k, s1. split; [apply in_or_app; right; left; reflexivity|auto].
        -- intros _. exists k, s1. split; [apply in_or_app; right; left; reflexivity|]. split; [exact X1|split; [exact X2|]].
           intros Hne. apply min_lower_l; [apply from_u32_time64|exact Ht|]. split; [exact Hne|unfold reading; lia].
      * eapply IH; [exact Sn|exact S1|exact Sb| |exact Su|exact Ht|exact H].
        destruct Hi as [L|(A & B & C)]; [left; auto|]. destruct S4 as [L|(P1 & P2 & P3)]; [left; exact L|right].
        split; [eapply exact_step; eassumption|]. split.
        -- rewrite B. split.
           ++ intros (k' & s & X & Y). exists k', s. split; [apply in_or_app; left; exact X|exact Y].
           ++ intros (k' & s & X & Y & Z0). apply in_app_or in X. destruct X as [X|[<-|[]]]; [eauto|].
              exfalso. destruct (proj2 P2) as (z & Z1); [right; eauto|discriminate].
        -- intros Hv. destruct (C Hv) as (k' & s & X & Y). exists k', s. split; [apply in_or_app; left; exact X|exact Y].
    + eapply IH; eauto. lia.
Qed.

Lemma check_map_limited : forall m, below 127 m -> limited m -> check_map m <> KNOT_EOK.
Proof.
  induction m as [|v m IH]; intros Hb L; [inversion L|]. inversion Hb as [|a l (B1 & B2) B3]; subst. cbn [check_map].
  unfold VALID_SIG_FOUND, VALID_KEYTAG_LIMIT. change (255 - 128) with 127. rewrite land127.
  destruct ((v >? 0) && (v <? 3)) eqn:E1; [discriminate|]. destruct (v mod 128 >=? 3) eqn:E2; [discriminate|].
  inversion L as [a l X|a l X]; subst; [lia|]. apply IH; assumption.
Qed.
Lemma check_map_ok : forall c skip r done sigs m, exact c skip r done sigs m ->
  (check_map m = KNOT_EOK <-> forall s, In s sigs -> fails c skip r done s < 3 /\ (0 < fails c skip r done s -> existsb (fun k => acc c skip r k s) done = true)).
Proof.
  intros c skip r done sigs m H. induction H as [|s sigs v m H IH H1 H2 H3]; cbn [check_map].
  - split; [intros _ s []|reflexivity].
  - unfold VALID_SIG_FOUND, VALID_KEYTAG_LIMIT. change (255 - 128) with 127. rewrite land127, H1.
    assert (F0 : 0 <= fails c skip r done s) by (unfold fails; lia).
    destruct ((v >? 0) && (v <? 3)) eqn:E1.
    + split; [discriminate|]. intros A. destruct (A s (or_introl eq_refl)) as (A1 & A2).
      assert (P : 0 < fails c skip r done s) by lia. apply A2 in P. apply H2 in P. lia.
    + destruct (fails c skip r done s >=? 3) eqn:E2.
      * split; [discriminate|]. intros A. destruct (A s (or_introl eq_refl)) as (A1 & A2). lia.
      * rewrite IH. split.
        -- intros A s' [<-|Hin]; [|auto]. split; [lia|]. intros P. apply H2. lia.
        -- intros A s' Hin. apply A. right. exact Hin.
Qed.

Definition vkeys (c : sctx) (r : rrs) (keys : list skey) : list skey := filter (fun k => key_used c k r) keys.
Lemma validate_iff : forall c skip r sigs keys, Z.of_nat (length keys) <= 127 ->
  ((exists u, knot_validate_rrsigs c skip r sigs keys = Ok u) <->
   (exists k s, In k (vkeys c r keys) /\ In s sigs /\ acc c skip r k s = true) /\
   forall s, In s sigs -> fails c skip r (vkeys c r keys) s < 3 /\ (0 < fails c skip r (vkeys c r keys) s -> existsb (fun k => acc c skip r k s) (vkeys c r keys) = true)) /\
  (forall u, knot_validate_rrsigs c skip r sigs keys = Ok u -> time64 u /\
     exists k s, In k (vkeys c r keys) /\ In s sigs /\ acc c skip r k s = true /\ (reading c s <> 0 -> lower u (reading c s))) /\
  knot_validate_rrsigs c skip r sigs keys <> UB /\ knot_validate_rrsigs c skip r sigs keys <> OOF.
Proof.
  intros c skip r sigs keys Hn. unfold knot_validate_rrsigs.
  destruct (validate_keys c skip r sigs keys (map (fun _ => 0) sigs) false 0) as ((m, valid), until) eqn:E.
  assert (Z0 : below 0 (map (fun _ => 0) sigs)). { apply Forall_forall. intros x Hx. apply in_map_iff in Hx. destruct Hx as (y & <- & _). cbn. lia. }
  destruct (validate_keys_inv c skip r sigs keys [] (map (fun _ => 0) sigs) false 0 m valid until) as (A1 & A2 & Au & A3 & A4); auto.
  - apply map_length.
  - right. split; [apply exact_zero|]. split; [|discriminate]. split; [discriminate|]. intros (k & s & [] & _).
  - unfold under. clear. induction sigs; cbn [map]; constructor; auto. cbn. lia.
  - cbv. split; [discriminate|reflexivity].
  - cbn [app] in A4, Au. fold (vkeys c r keys) in Au. fold (vkeys c r keys) in A4.
    assert (NU : forall x, (if negb (check_map m =? KNOT_EOK) then Err (check_map m) else if valid then Ok until else Err KNOT_DNSSEC_ENOSIG) = x -> x <> UB /\ x <> OOF).
    { intros x <-. destruct (negb _); [split; discriminate|]. destruct valid; split; discriminate. }
    destruct A4 as [L|(B1 & B2 & B3)].
    + pose proof (check_map_limited m A2 L) as N.
      assert ((check_map m =? KNOT_EOK) = false) as Ef by (apply Z.eqb_neq; exact N). rewrite Ef. cbn [negb].
      split; [|split; [discriminate|split; discriminate]]. split; [intros (u & X); discriminate|]. intros (_ & X). exfalso.
      clear - L Au X. unfold under in Au. induction Au as [|s v sigs m H Au IH]; [inversion L|].
      inversion L as [a l Y|a l Y]; subst; [|apply IH; [exact Y|intros; apply X; right; assumption]].
      destruct (X s (or_introl eq_refl)) as (X1 & _). lia.
    + pose proof (check_map_ok _ _ _ _ _ _ B1) as Ck. split; [|split; [|apply NU; reflexivity]].
      * destruct (Z.eqb_spec (check_map m) KNOT_EOK) as [Eq|Ne]; cbn [negb].
        -- rewrite Ck in Eq. split.
           ++ intros (u & X). destruct valid; [|discriminate]. split; [apply B2; reflexivity|exact Eq].
           ++ intros (X & _). apply B2 in X. rewrite X. eauto.
        -- split; [intros (u & X); discriminate|]. intros (_ & X). exfalso. apply Ne. apply Ck. exact X.
      * intros u. destruct (negb _); [discriminate|]. destruct valid; [|discriminate]. intros X. injection X as <-. split; [exact A3|]. apply B3. reflexivity.
Qed.

(** *** Nodes *)
Lemma key_used_iff : forall c k r, key_used c k r = true <-> may_sign c k r.
Proof.
  intros c k r. unfold key_used, may_sign, key_set, T_DNSKEY, T_CDNSKEY, T_CDS. destruct (name_eqb (r_owner r) (c_apex c)) eqn:En; cbn [negb].
  - apply name_eqb_eq in En. destruct ((r_type r =? 48) || (r_type r =? 60) || (r_type r =? 59)) eqn:Et.
    + split; [intros H; left; split; [split; [exact En|lia]|exact H]|]. intros [(_ & H)|(N & _)]; [exact H|]. exfalso. apply N. split; [exact En|lia].
    + split; [intros H; right; split; [intros (_ & X); lia|exact H]|]. intros [((_ & X) & _)|(_ & H)]; [lia|exact H].
  - split; [intros H; right; split; [|exact H]|].
    + intros (X & _). apply name_eqb_eq in X. congruence.
    + intros [((X & _) & _)|(_ & H)]; [apply name_eqb_eq in X; congruence|exact H].
Qed.
Lemma vkeys_in : forall c r keys k, In k (vkeys c r keys) <-> In k keys /\ may_sign c k r.
Proof. intros. unfold vkeys. rewrite filter_In, key_used_iff. tauto. Qed.

Lemma acc_valid : forall c keys nd r k s, 0 < c_now c < 2 ^ 63 -> c_unsafe_expired c = false -> crypto_ok (c_crypto c) -> flag_ok c keys nd -> times_ok c 0 nd ->
  In r (n_rrs nd) -> In k keys -> In s (n_sigs nd) -> acc c (skip_crypto c nd) r k s = true ->
  valid_now c k r s /\ reads (c_now c) (h_exp (s_hdr s)) (reading c s) /\ c_now c < reading c s.
Proof.
  intros c keys nd r k s Hn Hu Hc Hf Ht Hr Hk Hs H. unfold acc in H. apply andb_true_iff in H. destruct H as (M & Ck). apply matches_names in M.
  destruct (Ht s Hs) as (T1 & T2 & T3). unfold knot_check_signature in Ck. rewrite Hu in Ck. cbn [negb andb] in Ck. change (w32 0) with 0 in Ck.
  destruct (is_expired_signature (s_hdr s) (c_now c) 0) eqn:Ex; [discriminate|].
  destruct (not_expired (s_hdr s) (c_now c) 0) as (Fr & te & X1 & X2 & X3); auto; try lia.
  unfold reading. rewrite X2. split; [|split; [exact X1|lia]]. split; [exact M|split; [|exact Fr]].
  unfold skip_crypto in Ck. destruct (n_valid nd && negb (c_conflict c)) eqn:Esk.
  - apply andb_true_iff in Esk. destruct Esk as (V1 & V2). apply negb_true_iff in V2. eapply Hf; eauto.
  - unfold verifies. unfold dnssec_sign_verify in Ck.
    destruct (dnssec_algorithm_reproducible (c_alg c) (c_reproducible c) && k_can_sign k); [|exact Ck].
    destruct (cr_repro (c_crypto c) k (s_hdr s) r) as [v|?| |] eqn:Er; try discriminate.
    destruct (list_eq_dec Z.eq_dec v (s_val s)) as [->|N]; [|discriminate]. apply (proj2 Hc). exact Er.
Qed.
Lemma valid_acc : forall c keys skip r k s, 0 < c_now c < 2 ^ 63 -> compare_ok c keys -> In k keys ->
  names k r (s_hdr s) -> verifies c k r s -> fresh_strict (c_now c) 0 (s_hdr s) -> acc c skip r k s = true.
Proof.
  intros c keys skip r k s Hn Hcmp Hk Hna Hv Hfr. unfold acc. apply andb_true_iff. split; [apply matches_names; exact Hna|].
  unfold knot_check_signature. change (w32 0) with 0. rewrite (strict_not_expired (s_hdr s) (c_now c) 0); [|lia|lia|exact Hfr].
  rewrite andb_false_r. destruct skip; [reflexivity|]. unfold dnssec_sign_verify.
  destruct (dnssec_algorithm_reproducible (c_alg c) (c_reproducible c) && k_can_sign k) eqn:E; [|exact Hv].
  apply andb_true_iff in E. destruct E as (E1 & E2). rewrite (Hcmp E1 k (s_hdr s) r (s_val s) Hk E2 Hv).
  destruct (list_eq_dec Z.eq_dec (s_val s) (s_val s)); [reflexivity|contradiction].
Qed.

Lemma validate_rrsets_ok : forall c keys nd rs e e', Z.of_nat (length keys) <= 127 -> time64 e -> validate_rrsets c keys nd rs e = Ok e' ->
  time64 e' /\ (forall t, lower e t -> lower e' t) /\
  forall r, In r rs -> if should_be_signed nd r then exists u, knot_validate_rrsigs c (skip_crypto c nd) r (n_sigs nd) keys = Ok u /\ (forall t, lower u t -> lower e' t)
                       else forall s, In s (n_sigs nd) -> s_type s <> r_type r.
Proof.
  intros c keys nd. induction rs as [|r rs IH]; intros e e' Hn He H; cbn [validate_rrsets] in H.
  - injection H as <-. split; [exact He|]. split; [auto|]. intros r [].
  - destruct (should_be_signed nd r) eqn:Es; cbn [negb] in H.
    + destruct (knot_validate_rrsigs c (skip_crypto c nd) r (n_sigs nd) keys) as [u|?| |] eqn:Ev; cbn [rbind] in H; try discriminate.
      destruct (validate_iff c (skip_crypto c nd) r (n_sigs nd) keys Hn) as (_ & V & _). destruct (V u Ev) as (Tu & _).
      destruct (IH _ _ Hn (min_time64 _ _ He Tu) H) as (A & B & C). split; [exact A|]. split; [intros t Ht; apply B; apply min_lower_l; auto|].
      intros r' [<-|Hr]; [|apply C; exact Hr]. rewrite Es. exists u. split; [exact Ev|]. intros t Ht. apply B. apply min_lower_r; auto.
    + destruct (existsb (fun s => s_type s =? r_type r) (n_sigs nd)) eqn:Ex; [discriminate|].
      destruct (IH _ _ Hn He H) as (A & B & C). split; [exact A|]. split; [exact B|]. intros r' [<-|Hr]; [|apply C; exact Hr]. rewrite Es. intros s Hin E.
      enough (existsb (fun s => s_type s =? r_type r) (n_sigs nd) = true) by congruence. apply existsb_exists. exists s. split; [exact Hin|]. apply Z.eqb_eq. exact E.
Qed.
Lemma standalone_nil : forall nd, ch_rem (remove_standalone_rrsigs nd) = [] <->
  forall s, In s (n_sigs nd) -> s_type s = T_RRSIG \/ exists r, In r (n_rrs nd) /\ r_type r = s_type s.
Proof.
  intros nd. unfold remove_standalone_rrsigs. cbn [ch_rem]. induction (n_sigs nd) as [|s l IH]; cbn [filter].
  - split; [intros _ s []|reflexivity].
  - destruct (existsb (fun r => r_type r =? s_type s) (n_rrs nd)) eqn:E; cbn [orb negb].
    + rewrite IH. split; [|intros A s' Hs'; apply A; right; exact Hs']. intros A s' [<-|Hs']; [|auto]. right.
      apply existsb_exists in E. destruct E as (r & X & Y). exists r. split; [exact X|]. apply Z.eqb_eq. exact Y.
    + destruct (Z.eqb_spec (s_type s) T_RRSIG) as [Et|Nt]; cbn [negb].
      * rewrite IH. split; [|intros A s' Hs'; apply A; right; exact Hs']. intros A s' [<-|Hs']; [|auto]. left. exact Et.
      * split; [discriminate|]. intros A. exfalso. destruct (A s (or_introl eq_refl)) as [X|(r & X & Y)]; [contradiction|].
        enough (existsb (fun r => r_type r =? s_type s) (n_rrs nd) = true) by congruence. apply existsb_exists. exists r. split; [exact X|]. apply Z.eqb_eq. exact Y.
Qed.

Lemma validated : forall c keys nd e, Z.of_nat (length keys) <= 127 -> 0 < c_now c < 2 ^ 63 -> c_unsafe_expired c = false -> crypto_ok (c_crypto c) ->
  flag_ok c keys nd -> times_ok c 0 nd -> node_ok nd -> validate_node c keys nd = Ok e ->
  node_valid c keys nd /\ valid_until c keys e nd.
Proof.
  intros c keys nd e Hn Hnow Hu Hc Hf Ht Ho H. unfold validate_node in H.
  destruct (validate_rrsets c keys nd (n_rrs nd) 0) as [e0|?| |] eqn:Ev; cbn [rbind] in H; try discriminate.
  destruct (existsb (fun s => s_type s =? T_RRSIG) (n_sigs nd)) eqn:Ex; [discriminate|].
  destruct (ch_rem (remove_standalone_rrsigs nd)) eqn:Er; [|discriminate]. injection H as ->.
  apply validate_rrsets_ok in Ev; [|exact Hn|cbv; split; [discriminate|reflexivity]]. destruct Ev as (Te & _ & Ev).
  rewrite standalone_nil in Er.
  assert (NR : forall s, In s (n_sigs nd) -> s_type s <> T_RRSIG).
  { intros s Hin E. enough (existsb (fun s => s_type s =? T_RRSIG) (n_sigs nd) = true) by congruence. apply existsb_exists. exists s. split; [exact Hin|]. apply Z.eqb_eq. exact E. }
  assert (VU : valid_until c keys e nd).
  { intros r Hr Hm. apply should_must in Hm. specialize (Ev r Hr). rewrite Hm in Ev. destruct Ev as (u & Eu & L).
    destruct (validate_iff c (skip_crypto c nd) r (n_sigs nd) keys Hn) as (_ & V & _). destruct (V u Eu) as (_ & k & s & Hk & Hs & Ha & Hl).
    apply vkeys_in in Hk. destruct Hk as (Hk & Hmay).
    destruct (acc_valid c keys nd r k s Hnow Hu Hc Hf Ht Hr Hk Hs Ha) as (G1 & G2 & G3).
    exists k, s, (reading c s). repeat match goal with |- _ /\ _ => split end; auto; assert (X : lower e (reading c s)) by (apply L, Hl; lia); destruct X; unfold time64 in Te; lia. }
  split; [|exact VU]. split; [|split].
  - intros r Hr Hm. destruct (VU r Hr Hm) as (k & s & te & A1 & A2 & A3 & A4 & _). exists k, s. auto.
  - intros s Hs. destruct (Er s Hs) as [X|(r & Hr & Et)]; [exfalso; eapply NR; eauto|]. exists r. split; [exact Hr|]. split; [|unfold s_type in Et; congruence].
    apply should_must. specialize (Ev r Hr). destruct (should_be_signed nd r); [reflexivity|]. exfalso. apply (Ev s Hs). congruence.
  - intros r k s Hr Hm Hk Hmay Hs Hna. pose proof Hm as Hm'. apply should_must in Hm. specialize (Ev r Hr). rewrite Hm in Ev. destruct Ev as (u & Eu & _).
    destruct (validate_iff c (skip_crypto c nd) r (n_sigs nd) keys Hn) as (V & _). destruct (proj1 V (ex_intro _ u Eu)) as (_ & V').
    destruct (V' s Hs) as (V1 & V2).
    destruct (acc c (skip_crypto c nd) r k s) eqn:Ea.
    + exists k. split; [exact Hk|split; [exact Hmay|]]. eapply acc_valid; eauto.
    + assert (Rj : rej c (skip_crypto c nd) r k s = true).
      { unfold acc in Ea. unfold rej. apply matches_names in Hna. rewrite Hna in *. cbn [andb] in *. rewrite Ea. reflexivity. }
      assert (P : 0 < fails c (skip_crypto c nd) r (vkeys c r keys) s).
      { unfold fails. assert (In k (filter (fun k => rej c (skip_crypto c nd) r k s) (vkeys c r keys))) as X by (apply filter_In; split; [apply vkeys_in; auto|exact Rj]).
        destruct (filter _ _); [destruct X|cbn [length]; lia]. }
      apply V2 in P. apply existsb_exists in P. destruct P as (k' & P1 & P2). apply vkeys_in in P1. destruct P1 as (P1 & P3).
      exists k'. split; [exact P1|split; [exact P3|]]. eapply acc_valid; eauto.
Qed.

Lemma validates : forall c keys nd, Z.of_nat (length keys) <= 127 -> 0 < c_now c < 2 ^ 63 -> crypto_ok (c_crypto c) -> compare_ok c keys -> node_ok nd ->
  node_valid_strict c keys nd -> exists e, validate_node c keys nd = Ok e.
Proof.
  intros c keys nd Hn Hnow Hc Hcmp (O1 & O2 & O3) (N1 & N2 & N3). unfold validate_node.
  assert (E : forall rs e, incl rs (n_rrs nd) -> exists e', validate_rrsets c keys nd rs e = Ok e').
  { induction rs as [|r rs IH]; intros e Hi; cbn [validate_rrsets]; [eauto|].
    assert (Hr : In r (n_rrs nd)) by (apply Hi; left; reflexivity).
    assert (Hi' : incl rs (n_rrs nd)) by (intros a Ha; apply Hi; right; exact Ha).
    destruct (should_be_signed nd r) eqn:Es; cbn [negb].
    - apply should_must in Es.
      assert (A : forall k s, In k (vkeys c r keys) -> In s (n_sigs nd) -> names k r (s_hdr s) -> acc c (skip_crypto c nd) r k s = true).
      { intros k s Hk Hs Hna. apply vkeys_in in Hk. destruct Hk as (Hk & Hm). destruct (N3 r k s Hr Es Hk Hm Hs Hna) as (V & F). eapply valid_acc; eauto. }
      destruct (validate_iff c (skip_crypto c nd) r (n_sigs nd) keys Hn) as (V & _).
      destruct (proj2 V) as (u & ->); [|cbn [rbind]; apply IH; exact Hi']. split.
      + destruct (N1 r Hr Es) as (k & s & Hk & Hm & Hs & Hna). exists k, s. split; [apply vkeys_in; auto|split; [exact Hs|]]. apply A; auto. apply vkeys_in. auto.
      + intros s Hs. assert (F0 : fails c (skip_crypto c nd) r (vkeys c r keys) s = 0).
        { unfold fails. destruct (filter (fun k => rej c (skip_crypto c nd) r k s) (vkeys c r keys)) as [|k l] eqn:Ef; [reflexivity|]. exfalso.
          assert (X : In k (filter (fun k => rej c (skip_crypto c nd) r k s) (vkeys c r keys))) by (rewrite Ef; left; reflexivity).
          apply filter_In in X. destruct X as (X & Y). unfold rej in Y. apply andb_true_iff in Y. destruct Y as (Y1 & Y2). apply matches_names in Y1.
          pose proof (A k s X Hs Y1) as Z1. unfold acc in Z1. apply andb_true_iff in Z1. destruct Z1 as (_ & Z1). rewrite Z1 in Y2. discriminate. }
        rewrite F0. lia.
    - destruct (existsb (fun s => s_type s =? r_type r) (n_sigs nd)) eqn:Ex; [|apply IH; exact Hi'].
      exfalso. apply existsb_exists in Ex. destruct Ex as (s & Hs & Et). apply Z.eqb_eq in Et. destruct (N2 s Hs) as (r' & Hr' & Hm & Et').
      assert (r' = r) as -> by (eapply same_type; eauto; unfold s_type in Et; congruence). apply should_must in Hm. congruence. }
  destruct (E (n_rrs nd) 0 (incl_refl _)) as (e & ->). cbn [rbind]. exists e.
  assert (existsb (fun s => s_type s =? T_RRSIG) (n_sigs nd) = false) as ->.
  { destruct (existsb (fun s => s_type s =? T_RRSIG) (n_sigs nd)) eqn:Ex; auto. exfalso. apply existsb_exists in Ex. destruct Ex as (s & Hs & Et). apply Z.eqb_eq in Et.
    destruct (N2 s Hs) as (r & Hr & (_ & Hm & _) & Et'). unfold s_type, T_RRSIG in *. congruence. }
  assert (ch_rem (remove_standalone_rrsigs nd) = []) as ->; [|reflexivity].
  apply standalone_nil. intros s Hs. right. destruct (N2 s Hs) as (r & Hr & _ & Et). exists r. split; [exact Hr|]. unfold s_type. congruence.
Qed.
