(** The invariant of single keys. *)
From Verif Require Import Base KeyModel KeySpec.
From Coq Require Import Permutation.

Notation cre k := (t_created (k_t k)).
Notation pre k := (t_pre_active (k_t k)).
Notation pub k := (t_publish (k_t k)).
Notation rdy k := (t_ready (k_t k)).
Notation act k := (t_active (k_t k)).
Notation ra k := (t_retire_active (k_t k)).
Notation ret k := (t_retire (k_t k)).
Notation post k := (t_post_active (k_t k)).
Notation rem k := (t_remove (k_t k)).

Record kinv (now : Z) (k : key) : Prop := mkkinv {
  ki_po : k_pub_only k = false;
  ki_rev : t_revoke (k_t k) = 0;
  ki_role : k_ksk k = false -> k_zsk k = true;
  ki_cre : 0 < cre k <= now;
  ki_pre : 0 <= pre k <= now; ki_pre1 : pre k <> 0 -> cre k <= pre k;
  ki_pub : 0 <= pub k <= now; ki_pub1 : pub k <> 0 -> cre k <= pub k /\ pre k <= pub k;
  ki_beg : pre k <> 0 \/ pub k <> 0;
  ki_rdy : 0 <= rdy k <= now; ki_rdy1 : rdy k <> 0 -> k_ksk k = true /\ pub k <> 0 /\ pub k <= rdy k;
  ki_act : 0 <= act k <= now; ki_act1 : act k <> 0 -> pub k <> 0 /\ pub k <= act k /\ rdy k <= act k;
  ki_act2 : act k <> 0 -> k_ksk k = true -> rdy k <> 0;
  ki_ra : 0 <= ra k <= now; ki_ra1 : ra k <> 0 -> act k <> 0 /\ act k <= ra k;
  ki_ret : 0 <= ret k; ki_ret1 : ret k <> 0 -> act k <> 0 /\ act k <= ret k /\ ra k <= ret k /\ post k = 0 /\ k_zsk k = true;
  ki_post : 0 <= post k; ki_post1 : post k <> 0 -> act k <> 0 /\ act k <= post k /\ ra k <= post k;
  ki_rem : 0 <= rem k; ki_rem1 : rem k <> 0 -> act k <> 0 /\ act k <= rem k /\ ra k <= rem k /\ ret k <= rem k /\ post k <= rem k;
  ki_rem2 : rem k <> 0 -> ra k <> 0 \/ ret k <> 0 \/ post k <> 0;
  ki_ksk1 : k_ksk k = true -> ret k <> 0 \/ post k <> 0 \/ rem k <> 0 -> ra k <> 0;
  ki_ksk2 : k_ksk k = true -> ra k <> 0 -> ret k <> 0 \/ post k <> 0 \/ rem k <> 0;
  ki_zsk : k_ksk k = false -> ret k <= now /\ rem k <= now }.

Definition tail0 (k : key) : Prop := ra k = 0 /\ ret k = 0 /\ post k = 0 /\ rem k = 0.

Lemma past_spec : forall t m, 0 <= t -> 0 < m -> past t m = (negb (t =? 0) && (t <=? m)).
Proof. intros t m H H0. unfold past, knot_time_cmp. destruct (t =? m) eqn:E1, (t =? 0) eqn:E2, (m =? 0) eqn:E3, (t <? m) eqn:E4, (t <=? m) eqn:E5; cbn [negb andb orb]; lia. Qed.
Lemma past_0 : forall m, 0 < m -> past 0 m = false.
Proof. intros. rewrite past_spec by lia. reflexivity. Qed.
Lemma cmp_lt0 : forall t, 0 <= t -> (knot_time_cmp t 0 <? 0) = negb (t =? 0).
Proof. intros t H. unfold knot_time_cmp. rewrite Z.eqb_refl, orb_true_r. destruct (t =? 0) eqn:E; destruct (t <? 0) eqn:E2; cbn [negb]; lia. Qed.
Lemma cmp_lt : forall t u, 0 <= t -> 0 < u -> (knot_time_cmp t u <? 0) = (negb (t =? 0) && (t <? u)).
Proof. intros t u H H0. unfold knot_time_cmp. destruct (t =? u) eqn:E1, (t =? 0) eqn:E2, (u =? 0) eqn:E3, (t <? u) eqn:E4; cbn [negb andb orb]; lia. Qed.
Lemma min_0 : forall t, 0 <= t < 2 ^ 64 -> knot_time_min t 0 = t.
Proof. intros t H. unfold knot_time_min. rewrite Z.eqb_refl, orb_true_r. unfold w64. rewrite Z.add_0_r. apply Z.mod_small. lia. Qed.

(** The state of a key, from its times *)
Definition state_facts (now : Z) (k : key) (s : kstate) : Prop :=
  match s with
  | KPreActive => pre k <> 0 /\ pub k = 0 /\ rdy k = 0 /\ act k = 0 /\ tail0 k
  | KPublished => pub k <> 0 /\ rdy k = 0 /\ act k = 0 /\ tail0 k
  | KReady => k_ksk k = true /\ pub k <> 0 /\ rdy k <> 0 /\ act k = 0 /\ tail0 k
  | KActive => pub k <> 0 /\ act k <> 0 /\ ra k = 0 /\ ret k = 0 /\ rem k = 0 /\ (post k = 0 \/ now < post k /\ k_ksk k = false)
  | KRetireActive => act k <> 0 /\ ra k <> 0 /\ (ret k = 0 \/ now < ret k) /\ (post k = 0 \/ now < post k) /\ (rem k = 0 \/ now < rem k)
  | KRetired => act k <> 0 /\ 0 < ret k <= now /\ post k = 0 /\ (rem k = 0 \/ now < rem k)
  | KPostActive => act k <> 0 /\ 0 < post k <= now /\ ret k = 0 /\ (rem k = 0 \/ now < rem k)
  | KRemoved => act k <> 0 /\ 0 < rem k <= now
  | KInvalid | KRevoked => False
  end.
Lemma state_spec : forall now k, 0 < now -> kinv now k -> state_facts now k (get_key_state k now).
Proof.
  intros now k Hn [P1 P2 P3 P4 P5 P6 P7 P8 P9 P10 P11 P12 P13 P14 P15 P16 P17 P18 P19 P20 P21 P22 P23 P24 P25 P26]. unfold get_key_state. replace (now <=? 0) with false by lia. rewrite P2, past_0 by lia.
  rewrite !past_spec by lia. unfold state_facts, tail0.
  destruct (Z.eq_dec (rem k) 0) as [E|E]; [rewrite E; cbn [Z.eqb negb andb]|replace (rem k =? 0) with false by lia; cbn [negb andb]; destruct (rem k <=? now) eqn:E0; [lia|]].
  all: destruct (Z.eq_dec (post k) 0) as [F|F]; [rewrite F; cbn [Z.eqb negb andb]|replace (post k =? 0) with false by lia; cbn [negb andb]; destruct (post k <=? now) eqn:F0].
  all: destruct (Z.eq_dec (ret k) 0) as [G|G]; [rewrite G; cbn [Z.eqb negb andb]|replace (ret k =? 0) with false by lia; cbn [negb andb]; destruct (ret k <=? now) eqn:G0].
  all: try lia.
  all: destruct (Z.eq_dec (ra k) 0) as [H|H]; [rewrite H; cbn [Z.eqb negb andb]|replace (ra k =? 0) with false by lia; replace (ra k <=? now) with true by lia; cbn [negb andb]; try lia].
  all: destruct (Z.eq_dec (act k) 0) as [I|I]; [rewrite I; cbn [Z.eqb negb andb]|replace (act k =? 0) with false by lia; replace (act k <=? now) with true by lia; cbn [negb andb]; try (destruct (k_ksk k) eqn:?; lia)].
  all: try (exfalso; lia).
  destruct (Z.eq_dec (rdy k) 0) as [J|J]; [rewrite J; cbn [Z.eqb negb andb]|replace (rdy k =? 0) with false by lia; replace (rdy k <=? now) with true by lia; cbn [negb andb]; destruct (P11 J) as (? & ? & ?); repeat split; auto; lia].
  destruct (Z.eq_dec (pub k) 0) as [L|L]; [rewrite L; cbn [Z.eqb negb andb]|replace (pub k =? 0) with false by lia; replace (pub k <=? now) with true by lia; cbn [negb andb]; lia].
  replace (pre k =? 0) with false by lia; replace (pre k <=? now) with true by lia; cbn [negb andb]; lia.
Qed.
Lemma in_state_spec : forall now s k, in_state now s k = true <-> get_key_state k now = s.
Proof. intros now s k. unfold in_state. destruct (get_key_state k now), s; cbn [kstate_eqb]; split; intros H; try reflexivity; discriminate. Qed.

Lemma kinv_time : forall now now' k, kinv now k -> now <= now' -> kinv now' k.
Proof. intros now now' k [] H. constructor; auto; try lia. Qed.

(** Nothing is set in the future that clear_future_timers would clear *)
Lemma cft_id : forall now t, t <= now -> clear_future_timer now t = t.
Proof. intros. unfold clear_future_timer. replace (t >? now) with false by lia. reflexivity. Qed.
Lemma clear_id : forall now k, kinv now k -> clear_future_timers now k = k.
Proof.
  intros now k []. unfold clear_future_timers, with_t. rewrite !(cft_id now (pre k)), !(cft_id now (pub k)), !(cft_id now (rdy k)), !(cft_id now (act k)), !(cft_id now (ra k)) by lia.
  destruct (ra k =? 0) eqn:E; [rewrite (cft_id now (ret k)), (cft_id now (rem k)) by (destruct (k_ksk k) eqn:?; lia)|]; destruct k as [? ? ? ? []]; reflexivity.
Qed.
Lemma timing_eqb_refl : forall t, timing_eqb t t = true.
Proof. intros. unfold timing_eqb. rewrite !Z.eqb_refl. reflexivity. Qed.

(** *** The changes of single keys *)
Ltac kdone := try lia; intros; repeat match goal with |- _ /\ _ => split end; try assumption; try congruence; try lia; intuition (first [congruence | lia]).
Ltac kcase k := destruct k as [alg ksk zsk po [c p1 p2 p3 p4 p5 p6 p7 p8 p9]].
Ltac kred := unfold with_t, set_pre_active, set_publish, set_ready, set_active, set_retire_active, set_retire, set_post_active, set_remove, tail0, state_facts in *;
  cbn [k_alg k_ksk k_zsk k_pub_only k_t t_created t_pre_active t_publish t_ready t_active t_retire_active t_retire t_post_active t_revoke t_remove] in *.
Lemma kinv_publish : forall now k, 0 < now -> kinv now k -> get_key_state k now = KPreActive -> kinv now (with_t k (fun t => set_publish t now)).
Proof. intros now k Hn K E. pose proof (state_spec now k Hn K) as F. rewrite E in F. destruct K. kcase k. kred. constructor; kred; auto; kdone. Qed.
Lemma kinv_ready : forall now k, 0 < now -> kinv now k -> k_ksk k = true -> get_key_state k now = KPublished -> kinv now (with_t k (fun t => set_ready t now)).
Proof. intros now k Hn K Q E. pose proof (state_spec now k Hn K) as F. rewrite E in F. destruct K. kcase k. kred. constructor; kred; auto; kdone. Qed.
Lemma kinv_activate : forall now k, 0 < now -> kinv now k -> get_key_state k now = (if k_ksk k then KReady else KPublished) -> kinv now (with_t k (fun t => set_active t now)).
Proof. intros now k Hn K E. pose proof (state_spec now k Hn K) as F. destruct (k_ksk k) eqn:Q; rewrite E in F; destruct K; kcase k; kred; constructor; kred; auto; kdone. Qed.
Lemma kinv_remove : forall now k, 0 < now -> kinv now k -> get_key_state k now = KRetired \/ get_key_state k now = KPostActive -> kinv now (with_t k (fun t => set_remove t now)).
Proof. intros now k Hn K E. pose proof (state_spec now k Hn K) as F. destruct E as [E|E]; rewrite E in F; destruct K; kcase k; kred; constructor; kred; auto; kdone. Qed.
Lemma kinv_new : forall now a ksk zsk when b, 0 < now -> (ksk = false -> zsk = true) -> (when = 0 \/ when = now /\ b = false) ->
  kinv now (mkkey a ksk zsk false (mktm now (if b then now else 0) (if b then 0 else now) (if ksk then when else 0) (if ksk then 0 else when) 0 0 0 0 0)).
Proof. intros now a ksk zsk when b Hn R W. destruct ksk, b; constructor; kred; auto; kdone. Qed.
