(** What becomes of single keys: times that are set do not change, and only removed keys are deleted. *)
From Verif Require Import Base KeyModel KeySpec KeyProofs KeyProofs2 KeyProofs3 KeyProofs4 KeyProofs5 KeyProofs6.
From Coq Require Import Permutation.

Definition nofut (now : Z) (k : key) : Prop := now < rem k -> ret k = 0 /\ post k = 0.
Definition evo (now : Z) (k k' : key) : Prop := later k k' /\ nofut now k'.

Lemma later_refl : forall k, later k k.
Proof. intros k. repeat split; auto. unfold life. cbv zeta. repeat constructor; auto. Qed.
Lemma later_trans : forall a b c, later a b -> later b c -> later a c.
Proof.
  intros a b c (A1 & A2 & A3 & A4) (B1 & B2 & B3 & B4). repeat split; try congruence. revert A4 B4. generalize (life a) (life b) (life c). intros x y z H. revert z. induction H; intros z G; inversion G; subst; constructor; auto.
  intros N. rewrite (H N) in H3. auto.
Qed.
Ltac evo_tac := unfold evo, later, nofut, life; kred; repeat match goal with |- _ /\ _ => split end; try reflexivity; try (repeat (apply Forall2_cons; [intros; lia|]); constructor); try (intros; lia); try (intros; split; lia).

Lemma evo_refl : forall now k, nofut now k -> evo now k k.
Proof. intros. split; [apply later_refl|auto]. Qed.
Lemma evo_activated : forall now k, 0 < now -> kinv now k -> nofut now k -> get_key_state k now = KReady \/ get_key_state k now = KPublished -> evo now k (activated now k).
Proof. intros now k Hn K NF E. pose proof (state_spec now k Hn K) as F. unfold activated. destruct E as [E|E]; rewrite E in F; clear E K; unfold nofut in NF; kcase k; kred; evo_tac. Qed.
Lemma evo_old : forall now fin old new, 0 < now -> kinv now old -> nofut now old -> get_key_state old now = KActive -> evo now old (old_after now fin old new).
Proof.
  intros now fin old new Hn K NF E. pose proof (state_spec now old Hn K) as F. rewrite E in F. clear E. unfold old_after. destruct K. clear - F NF Hn. kcase old. unfold nofut in NF. kred.
  destruct F as (_ & _ & F1 & F2 & F3 & [F4|[F4 F5]]); destruct (negb (alg =? k_alg new)), ksk, zsk; try discriminate; kred; evo_tac.
Qed.
Lemma evo_zsk : forall now fin z old new, 0 < now -> kinv now z -> nofut now z -> z_eligible now new z -> post z <= now -> evo now z (zsk_after now fin z old new).
Proof.
  intros now fin z old new Hn K NF (Z1 & Z2 & _ & ES) PZ. pose proof (state_spec now z Hn K) as F. pose proof (ki_zsk _ _ K Z2) as KZ. unfold zsk_after. clear K. unfold nofut in NF.
  destruct ES as [E|E]; rewrite E in F; clear E; kcase z; kred; destruct (negb (k_alg old =? k_alg new)); kred; evo_tac.
Qed.
Lemma evo_remove : forall now k, 0 < now -> kinv now k -> nofut now k -> get_key_state k now = KRetired \/ get_key_state k now = KPostActive -> evo now k (with_t k (fun t => set_remove t now)).
Proof. intros now k Hn K NF E. pose proof (state_spec now k Hn K) as F. clear K. unfold nofut in NF. destruct E as [E|E]; rewrite E in F; clear E; kcase k; kred; evo_tac. Qed.
Lemma evo_publish : forall now k, 0 < now -> kinv now k -> nofut now k -> get_key_state k now = KPreActive -> evo now k (with_t k (fun t => set_publish t now)).
Proof. intros now k Hn K NF E. pose proof (state_spec now k Hn K) as F. clear K. unfold nofut in NF. rewrite E in F; clear E; kcase k; kred; evo_tac. Qed.
Lemma evo_ready : forall now k, 0 < now -> kinv now k -> nofut now k -> get_key_state k now = KPublished -> evo now k (with_t k (fun t => set_ready t now)).
Proof. intros now k Hn K NF E. pose proof (state_spec now k Hn K) as F. clear K. unfold nofut in NF. rewrite E in F; clear E; kcase k; kred; evo_tac. Qed.
Lemma evo_new : forall p now ksk zsk when b, nofut now (newkey p now ksk zsk when b).
Proof. intros. unfold nofut. cbn. auto. Qed.

(** From keys to lists *)
Definition next_keys (p : policy) (now : Z) (ks ks' : list key) : Prop :=
  (forall k, In k ks -> (exists k', In k' ks' /\ evo now k k') \/ may_delete p now k) /\
  (forall k', In k' ks' -> nofut now k' /\ ((exists k, In k ks /\ later k k') \/ t_created (k_t k') = now)).
Lemma nk_f2 : forall p now a b ks ks', Permutation ks a -> Permutation ks' b -> Forall2 (evo now) a b -> next_keys p now ks ks'.
Proof.
  intros p now a b ks ks' PA PB H. split.
  - intros k I. left. apply (Permutation_in _ PA) in I. enough (exists k', In k' b /\ evo now k k') as (k' & J & E) by (exists k'; split; [apply (Permutation_in _ (Permutation_sym PB)); exact J|exact E]).
    clear PA PB. induction H; [destruct I|]. destruct I as [<- | I]; [exists y; split; [left; reflexivity|exact H]|]. destruct (IHForall2 I) as (k' & J & E). exists k'. split; [right; exact J|exact E].
  - intros k' I. apply (Permutation_in _ PB) in I. enough (exists k, In k a /\ evo now k k') as (k & J & E & N) by (split; [exact N|left; exists k; split; [apply (Permutation_in _ (Permutation_sym PA)); exact J|exact E]]).
    clear PA PB. induction H; [destruct I|]. destruct I as [<- | I]; [exists x; split; [left; reflexivity|exact H]|]. destruct (IHForall2 I) as (k & J & E). exists k. split; [right; exact J|exact E].
Qed.
Lemma nk_add : forall p now ks l, Forall (nofut now) ks -> (forall k, In k l -> nofut now k /\ t_created (k_t k) = now) -> next_keys p now ks (ks ++ l).
Proof.
  intros p now ks l F H. pose proof (proj1 (Forall_forall _ _) F) as FA. split.
  - intros k I. left. exists k. split; [apply in_or_app; auto|apply evo_refl; auto].
  - intros k I. apply in_app_or in I. destruct I as [I|I]; [split; [auto|left; exists k; split; [exact I|apply later_refl]]|]. destruct (H k I). auto.
Qed.
Lemma f2_refl : forall now r, Forall (nofut now) r -> Forall2 (evo now) r r.
Proof. intros now r H. induction H; constructor; auto using evo_refl. Qed.
Lemma nk_replaced : forall p now fin new ks ks', 0 < now -> inv now ks -> Forall (nofut now) ks -> get_key_state new now = (if k_ksk new then KReady else KPublished) -> replaced now fin new ks ks' -> next_keys p now ks ks'.
Proof.
  intros p now fin new ks ks' Hn V NF S RP. assert (S' : get_key_state new now = KReady \/ get_key_state new now = KPublished) by (destruct (k_ksk new); auto).
  destruct RP as [r P P' _|old r P P' Q A _|old z r P P' QN QO A Z]; eapply nk_f2; try exact P; try exact P'; pose proof (inv_perm _ _ _ V P) as V'; pose proof (in_keys _ _ V') as FK; rewrite P in NF.
  - inversion NF; inversion FK; subst. constructor; [apply evo_activated; auto|apply f2_refl; auto].
  - inversion NF as [|? ? NF1 NF2]; inversion NF2; inversion FK as [|? ? F1 F2]; inversion F2; subst. constructor; [apply evo_activated; auto|]. constructor; [apply evo_old; auto|apply f2_refl; auto].
  - rewrite QN in S. destruct (two_live now new old (z :: r) Hn V' QN S QO A) as (_ & _ & _ & _ & PZ & _).
    inversion NF as [|? ? NF1 NF2]; inversion NF2 as [|? ? NF3 NF4]; inversion NF4; inversion FK as [|? ? F1 F2]; inversion F2 as [|? ? F3 F4]; inversion F4; subst. constructor; [apply evo_activated; auto|]. constructor; [apply evo_old; auto|].
    constructor; [|apply f2_refl; auto]. apply evo_zsk; auto. apply PZ; [left; reflexivity|]. apply Z.
Qed.
Lemma really_time : forall p now k, 0 < now < 2 ^ 63 -> kinv now k -> 0 <= p_delete_delay p < 2 ^ 32 -> get_key_state k now = KRemoved -> (exists ks, due p now ks k AReallyRemove) -> p_keep_deleted p = false -> may_delete p now k.
Proof.
  intros p now k Hn K HD S (ks & tm & H & T) KD. pose proof (state_spec now k ltac:(lia) K) as F. rewrite S in F. destruct F as [_ F]. split; [exact KD|]. split; [exact F|]. split.
  - pose proof (ki_rem1 _ _ K). pose proof (ki_rem2 _ _ K ltac:(lia)). pose proof (ki_ra _ _ K). pose proof (ki_ret _ _ K). pose proof (ki_post _ _ K). unfold retired_by. cbn [In].
    destruct (Z.eq_dec (ra k) 0); [destruct (Z.eq_dec (ret k) 0)|]; [exists (post k)|exists (ret k)|exists (ra k)]; (split; [tauto|lia]).
  - assert (TM : tm = if knot_time_cmp (really_remove_time p (rem k)) now >? 0 then 0 else really_remove_time p (rem k)). { unfold key_action in H. rewrite S in H. destruct (k_ksk k); injection H as <-; reflexivity. }
    unfold really_remove_time in TM. rewrite KD in TM. unfold knot_time_add in TM. replace (rem k =? 0) with false in TM by lia. cbn [negb] in TM. unfold w64 in TM. rewrite Z.mod_small in TM by lia.
    destruct (knot_time_cmp (rem k + p_delete_delay p) now >? 0) eqn:C; [subst tm; rewrite past_0 in T by lia; discriminate|]. subst tm. rewrite past_spec in T by lia. lia.
Qed.
Lemma step_keys : forall strict p now ks ks', 0 < now < 2 ^ 63 -> is_u32 (p_delete_delay p) -> inv now ks -> Forall (nofut now) ks -> step strict p now ks ks' -> next_keys p now ks ks'.
Proof.
  intros strict p now ks ks' Hn HD V NF ST. pose proof (in_keys _ _ V) as FK.
  assert (NEW : forall ksk zsk when b, nofut now (newkey p now ksk zsk when b) /\ t_created (k_t (newkey p now ksk zsk when b)) = now) by (intros; split; [apply evo_new|reflexivity]).
  destruct ST as [G -> |R _ -> |R -> |R _ _ -> |b R -> |k r P S _ P'|k r P S Q _ P'|k I S _ RP|k r P S _ P'|k P S D KD].
  - apply nk_add; auto. intros k [<- | I]; [apply NEW|]. destruct (p_sts p || key_present now ks false true); [destruct I|]. destruct I as [<- | []]. apply NEW.
  - apply nk_add; auto. intros k [<- | []]. apply NEW.
  - apply nk_add; auto. intros k [<- | []]. apply NEW.
  - apply nk_add; auto. intros k [<- | []]. apply NEW.
  - apply nk_add; auto. intros k [<- | I]; [apply NEW|]. destruct (p_sts p); [destruct I|]. destruct I as [<- | []]. apply NEW.
  - rewrite P in FK, NF. inversion NF; inversion FK; subst. eapply nk_f2; [exact P|exact P'|]. constructor; [apply evo_publish; auto; lia|apply f2_refl; auto].
  - rewrite P in FK, NF. inversion NF as [|? ? N1 N2]; inversion FK as [|? ? F1 F2]; subst. eapply nk_f2; [exact P|exact P'|]. constructor; [apply evo_ready; auto; lia|]. clear - N2 F2 Hn. induction r as [|x r IH]; cbn [map]; constructor; inversion N2; inversion F2; subst; auto.
    destruct (k_ksk x && in_state now KReady x) eqn:E; [|apply evo_refl; auto]. apply andb_true_iff in E. destruct E as [_ E]. apply in_state_spec in E. apply evo_activated; auto; lia.
  - eapply nk_replaced; eauto; lia.
  - rewrite P in FK, NF. inversion NF; inversion FK; subst. eapply nk_f2; [exact P|exact P'|]. constructor; [apply evo_remove; auto; lia|apply f2_refl; auto].
  - rewrite P in FK, NF. inversion NF as [|? ? N1 N2]; inversion FK; subst. pose proof (proj1 (Forall_forall _ _) N2) as NA. split.
    + intros x I. apply (Permutation_in _ P) in I. destruct I as [<- | I]; [|left; exists x; split; [exact I|apply evo_refl; auto]]. right. eapply really_time; eauto.
    + intros x I. split; [auto|]. left. exists x. split; [apply (Permutation_in _ (Permutation_sym P)); right; exact I|apply later_refl].
Qed.
Definition run_keys (p : policy) (now : Z) (ks ks' : list key) : Prop :=
  (forall k, In k ks -> (exists k', In k' ks' /\ later k k') \/ exists g, later k g /\ may_delete p now g) /\
  (forall k', In k' ks' -> (exists k, In k ks /\ later k k') \/ t_created (k_t k') = now).
Lemma steps_keys : forall strict p now ks ks', 0 < now < 2 ^ 63 -> is_u32 (p_delete_delay p) -> inv now ks -> Forall (nofut now) ks -> steps strict p now ks ks' -> Forall (nofut now) ks' /\ run_keys p now ks ks'.
Proof.
  intros strict p now ks ks' Hn HD V NF H. induction H as [ks|a b c ST H IH].
  - split; [exact NF|]. split; intros k I; left; exists k; split; auto using later_refl.
  - destruct (step_keys _ _ _ _ _ Hn HD V NF ST) as [A B]. assert (NB : Forall (nofut now) b) by (apply Forall_forall; intros x I; apply B; exact I). destruct (IH (step_inv _ _ now _ _ ltac:(lia) V ST) NB) as (NC & A' & B'). split; [exact NC|]. split.
    + intros k I. destruct (A k I) as [(k1 & I1 & L1 & _)|M]; [|right; exists k; split; [apply later_refl|exact M]]. destruct (A' k1 I1) as [(k2 & I2 & L2)|(g & L2 & M)]; [left; exists k2|right; exists g]; split; eauto using later_trans.
    + intros k I. destruct (B' k I) as [(k1 & I1 & L1)|C]; [|auto]. destruct (B k1 I1) as [_ [(k2 & I2 & L2)|C]]; [left; exists k2; split; eauto using later_trans|]. right. destruct L1 as (_ & _ & _ & L). inversion L as [|? ? ? ? C0 _]; subst. rewrite C0; lia.
Qed.
Lemma history_nofut : forall ok now ks, history ok now ks -> Forall (nofut now) ks.
Proof.
  intros ok now ks H. induction H as [now B|now now' ks H IH T|now ks fuel e p fl ks' H IH PO HF OK R|now ks e delay ks' H IH D R].
  - constructor.
  - eapply Forall_impl; [|exact IH]. unfold nofut. intros k N L. apply N. lia.
  - destruct (history_inv _ _ _ H) as [B V]. pose proof (rollover_spec False fuel e p fl now ks B V HF ltac:(tauto)) as S. rewrite R in S. destruct S as [-> |[S _]]; [exact IH|]. apply (steps_keys _ _ _ _ _ B ltac:(apply PO) V IH S).
  - destruct (history_inv _ _ _ H) as [B V]. pose proof (confirm_spec e now delay ks B V D) as S. rewrite R in S. destruct S as (k & I & Q & ST & RP).
    assert (NK : next_keys (mkpol true 0 true 0 0 0 0 0 0 0 true) now ks ks') by (eapply nk_replaced; eauto; [lia|rewrite Q; exact ST]). apply Forall_forall. intros x J. apply NK. exact J.
Qed.
