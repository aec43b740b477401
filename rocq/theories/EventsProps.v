(** C35: planning of zone events. *)
From Verif Require Import Base EventsModel EventsSpec.

Lemma applies_spec : forall t, ufreeze_applies t = true <-> changes_zone t.
Proof. intros t. unfold ufreeze_applies, changes_zone, EV_LOAD, EV_REFRESH, EV_UPDATE, EV_FLUSH, EV_DNSSEC, EV_DS_CHECK. cbn [In]. lia. Qed.

Definition ok_at (ufrozen : bool) (i : Z) (f : bool) : bool := f || negb ufrozen || negb (ufreeze_applies i).
(** the loop over the events *)
Lemma next_loop_spec : forall ts fs i uf next nt, length ts = length fs -> Forall (fun x => 0 <= x) ts -> 0 <= next -> 0 <= i ->
  (next = 0 -> nt = -1) -> (next <> 0 -> 0 <= nt < i) ->
  let r := next_loop i ts fs uf next nt in
  (r = nt /\ (forall j x f, zget ts j = Some x -> zget fs j = Some f -> x <> 0 -> ok_at uf (i + j) f = true -> next <> 0 /\ next <= x)) \/
  (i <= r < i + zlen ts /\ exists x f, zget ts (r - i) = Some x /\ zget fs (r - i) = Some f /\ x <> 0 /\ ok_at uf r f = true /\ (next <> 0 -> x < next) /\
     forall j y g, zget ts j = Some y -> zget fs j = Some g -> y <> 0 -> ok_at uf (i + j) g = true -> x <= y).
Proof.
  induction ts as [|c ts IH]; intros [|f fs] i uf next nt HL HF Hn Hi H0 H1; try discriminate.
  - left. split; [reflexivity|]. intros j x f Hj. apply zget_some in Hj. cbn in Hj. lia.
  - inversion HF as [|? ? Hc HF']; subst. injection HL as HL. cbn [next_loop]. fold (ok_at uf i f).
    destruct (((next =? 0) || (c <? next)) && negb (c =? 0) && ok_at uf i f) eqn:EC.
    + apply andb_prop in EC. destruct EC as [EC EO]. apply andb_prop in EC. destruct EC as [EC1 EC2].
      destruct (IH fs (i + 1) uf c i HL HF' Hc ltac:(lia) ltac:(lia) ltac:(lia)) as [[HR HA]|(HR & x & g & G1 & G2 & G3 & G4 & G5 & G6)]; right.
      * rewrite HR. split; [rewrite zlen_cons; pose proof (zlen_nonneg ts); lia|]. exists c, f. rewrite Z.sub_diag. split; [reflexivity|]. split; [reflexivity|]. split; [lia|]. split; [auto|]. split; [lia|]. intros j y g Hj Hg Hy Ho. destruct (Z.eq_dec j 0) as [->|Hne]; [cbn in Hj; inversion Hj; lia|]. pose proof (zget_some _ _ _ Hj). rewrite zget_cons in Hj by lia. rewrite zget_cons in Hg by lia. destruct (HA (j - 1) y g Hj Hg Hy) as [_ HX]; [rewrite <- Ho; f_equal; lia|lia].
      * rewrite zlen_cons. split; [lia|]. exists x, g. pose proof (zget_some _ _ _ G1). rewrite !zget_cons by lia. replace (next_loop (i + 1) ts fs uf c i - i - 1) with (next_loop (i + 1) ts fs uf c i - (i + 1)) by lia. split; [auto|]. split; [auto|]. split; [auto|]. split; [auto|]. specialize (G5 ltac:(lia)). split; [lia|]. intros j y g' Hj Hg Hy Ho. destruct (Z.eq_dec j 0) as [->|Hne]; [cbn in Hj; inversion Hj; lia|]. pose proof (zget_some _ _ _ Hj). rewrite zget_cons in Hj by lia. rewrite zget_cons in Hg by lia. apply (G6 (j - 1) y g' Hj Hg Hy). rewrite <- Ho. f_equal. lia.
    + destruct (IH fs (i + 1) uf next nt HL HF' Hn ltac:(lia) H0 ltac:(lia)) as [[HR HA]|(HR & x & g & G1 & G2 & G3 & G4 & G5 & G6)]; [left|right].
      * split; [auto|]. intros j y g Hj Hg Hy Ho. destruct (Z.eq_dec j 0) as [->|Hne].
        -- cbn in Hj, Hg. inversion Hj; inversion Hg; subst y g. rewrite Z.add_0_r in Ho. rewrite Ho in EC. lia.
        -- pose proof (zget_some _ _ _ Hj). rewrite zget_cons in Hj by lia. rewrite zget_cons in Hg by lia. apply (HA (j - 1) y g Hj Hg Hy). rewrite <- Ho. f_equal. lia.
      * rewrite zlen_cons. split; [lia|]. exists x, g. pose proof (zget_some _ _ _ G1). rewrite !zget_cons by lia. replace (next_loop (i + 1) ts fs uf next nt - i - 1) with (next_loop (i + 1) ts fs uf next nt - (i + 1)) by lia. split; [auto|]. split; [auto|]. split; [auto|]. split; [auto|]. split; [auto|]. intros j y g' Hj Hg Hy Ho. destruct (Z.eq_dec j 0) as [->|Hne].
        -- cbn in Hj, Hg. inversion Hj; inversion Hg; subst y g'. rewrite Z.add_0_r in Ho. rewrite Ho in EC. assert (next <> 0 /\ next <= c) as [N1 N2] by lia. specialize (G5 N1). lia.
        -- pose proof (zget_some _ _ _ Hj). rewrite zget_cons in Hj by lia. rewrite zget_cons in Hg by lia. apply (G6 (j - 1) y g' Hj Hg Hy). rewrite <- Ho. f_equal. lia.
Qed.

Definition shape (e : events) : Prop := zlen (e_time e) = 14 /\ zlen (e_forced e) = 14 /\ Forall (fun x => 0 <= x) (e_time e) /\ 1000 <= e_clock e /\ Forall (fun x => valid_event (fst x) = true) (e_plan e).
Definition none_next (e : events) : Prop := forall t x, planned e t x -> ~ allowed e t.
Definition is_next (e : events) (t : Z) : Prop := exists x, planned e t x /\ allowed e t /\ forall j y, planned e j y -> allowed e j -> x <= y.

Lemma forced_get : forall e t, shape e -> 0 <= t < 14 -> exists f, zget (e_forced e) t = Some f.
Proof. intros e t (_ & H & _) Ht. destruct (zget_in_range (e_forced e) t ltac:(lia)). eauto. Qed.
Lemma allowed_ok : forall e t f, zget (e_forced e) t = Some f -> (ok_at (e_ufrozen e) t f = true <-> allowed e t).
Proof.
  intros e t f Hf. unfold ok_at, allowed. rewrite <- applies_spec. rewrite Hf. destruct f, (e_ufrozen e), (ufreeze_applies t); cbn; split; intros H; auto; try discriminate; try (right; right; congruence). destruct H as [H|[H|H]]; congruence.
Qed.
Lemma next_spec : forall e, shape e ->
  (get_next_event e = -1 /\ none_next e) \/ (valid_event (get_next_event e) = true /\ is_next e (get_next_event e)).
Proof.
  intros e HS. pose proof HS as (HT & HF & HP & _). unfold get_next_event. assert (HL : length (e_time e) = length (e_forced e)) by (unfold zlen in *; lia).
  destruct (next_loop_spec (e_time e) (e_forced e) 0 (e_ufrozen e) 0 (-1) HL HP ltac:(lia) ltac:(lia) ltac:(lia) ltac:(lia)) as [[HR HA]|(HR & x & f & G1 & G2 & G3 & G4 & _ & G6)].
  - left. split; [auto|]. intros t x [Ht Hx] HAl. pose proof (zget_some _ _ _ Ht). destruct (forced_get e t HS ltac:(lia)) as [f Hf]. apply (allowed_ok e t f Hf) in HAl. destruct (HA t x f Ht Hf Hx HAl). lia.
  - right. rewrite HT in HR. split; [unfold valid_event, EV_COUNT; lia|]. rewrite Z.sub_0_r in *. exists x. split; [split; auto|]. split; [eapply allowed_ok; eauto|]. intros j y [Hj Hy] HAl. pose proof (zget_some _ _ _ Hj). destruct (forced_get e j HS ltac:(lia)) as [g Hg]. apply (G6 j y g Hj Hg Hy). rewrite Z.add_0_l. eapply allowed_ok; eauto.
Qed.
Lemma next_time_spec : forall e, shape e -> (get_next_time e = 0 /\ none_next e) \/ (get_next_time e > 0 /\ exists t, t = get_next_event e /\ valid_event t = true /\ planned e t (get_next_time e) /\ is_next e t).
Proof.
  intros e HS. unfold get_next_time. destruct (next_spec e HS) as [[-> H]|[HV H]]; [left; split; [reflexivity|auto]|right]. rewrite HV. destruct H as (x & [Hx Hn] & HA & HM). unfold get_time. rewrite Hx. destruct HS as (_ & _ & HP & _). rewrite Forall_forall in HP. assert (0 <= x) by (apply HP; unfold zget in Hx; destruct (_ <? 0); [discriminate|]; eapply nth_error_In; eauto). split; [lia|]. eexists. split; [reflexivity|]. split; [auto|]. split; [split; auto|]. exists x. split; [split; auto|auto].
Qed.

(** ** The invariant *)
Definition debt (e : events) : Prop := e_resched e > 0 \/ exists t, In (t, true) (e_plan e).
Definition Inv (e : events) : Prop :=
  shape e /\ 0 <= e_resched e /\
  ((e_running e = false /\ e_tasks e = 0 /\ e_exec e = None) \/ (e_running e = true /\ e_tasks e = 1 /\ e_exec e = None) \/ (e_running e = true /\ e_tasks e = 0 /\ exists t, e_exec e = Some t)) /\
  (e_hold e = Cancelling -> e_frozen e = true) /\
  (e_running e = false -> e_frozen e = false -> none_next e \/ e_armed e <> None \/ (exists d, e_hold e = Arming d) \/ debt e).

Lemma zset_shape : forall (l : list Z) i x, 0 <= i < zlen l -> Forall (fun x => 0 <= x) l -> 0 <= x -> Forall (fun x => 0 <= x) (zset l i x).
Proof.
  intros l i x Hi HF Hx. apply Forall_forall. intros y Hy. apply In_nth_error in Hy. destruct Hy as [n Hn]. assert (HG : zget (zset l i x) (Z.of_nat n) = Some y) by (unfold zget; replace (_ <? 0) with false by lia; rewrite Nat2Z.id; auto).
  rewrite zget_zset in HG by auto. destruct (_ =? i); [inversion HG; lia|]. rewrite Forall_forall in HF. apply HF. unfold zget in HG. destruct (_ <? 0); [discriminate|]. eapply nth_error_In; eauto.
Qed.

Lemma update_timers_shape : forall l e, shape e -> forallb (fun x => valid_event (fst x)) l = true ->
  exists ts, update_timers e l = with_times e ts /\ shape (with_times e ts).
Proof.
  induction l as [|[t pl] l IH]; intros e HS HV; cbn [update_timers].
  - exists (e_time e). split; [destruct e; reflexivity|]. destruct HS as (?&?&?&?&?). repeat split; auto.
  - cbn [forallb fst] in HV. apply andb_prop in HV. destruct HV as [V1 V2]. unfold valid_event, EV_COUNT in V1. destruct (pl <? 0) eqn:E; [apply IH; auto|].
    destruct (_ || _ || _); [|apply IH; auto]. assert (HS1 : shape (set_time e t pl)).
    { destruct HS as (H1 & H2 & H3 & H4 & H5). unfold set_time. repeat split; cbn; auto; [rewrite zlen_zset by lia; auto|apply zset_shape; auto; lia]. }
    destruct (IH _ HS1 V2) as (ts & -> & HS2). exists ts. split; [reflexivity|exact HS2].
Qed.

Lemma same_next : forall e e', e_time e' = e_time e -> e_forced e' = e_forced e -> e_ufrozen e' = e_ufrozen e -> (none_next e <-> none_next e').
Proof. intros e e' H1 H2 H3. unfold none_next, planned, allowed. rewrite H1, H2, H3. reflexivity. Qed.

Lemma inv_reschedule : forall e, shape e -> 0 <= e_resched e ->
  ((e_running e = false /\ e_tasks e = 0 /\ e_exec e = None) \/ (e_running e = true /\ e_tasks e = 1 /\ e_exec e = None) \/ (e_running e = true /\ e_tasks e = 0 /\ exists t, e_exec e = Some t)) ->
  Inv (reschedule e).
Proof.
  intros e HS HR HX. unfold reschedule. destruct (e_running e || e_frozen e) eqn:E.
  - split; [exact HS|]. split; [exact HR|]. split; [exact HX|]. split; [discriminate|]. cbn. intros H1 H2. rewrite H1, H2 in E. discriminate.
  - destruct (next_spec e HS) as [[HN H]|[HN H]].
    + rewrite HN. cbn. split; [exact HS|]. split; [exact HR|]. split; [exact HX|]. split; [discriminate|]. intros _ _. left. exact H.
    + rewrite HN. cbn. split; [exact HS|]. split; [exact HR|]. split; [exact HX|]. split; [discriminate|]. intros _ _. right. right. left. eexists. reflexivity.
Qed.

Lemma inv_schedule : forall e l, Inv e -> e_hold e = Free -> forallb (fun x => valid_event (fst x)) l = true -> Inv (schedule_at e l).
Proof.
  intros e l (HS & HR & HX & HC & HI) HF HV. unfold schedule_at. destruct (update_timers_shape l e HS HV) as (ts & -> & HS2).
  destruct (get_next_time e =? get_next_time (with_times e ts)) eqn:E; cbn [negb]; [|apply inv_reschedule; auto].
  split; [exact HS2|]. split; [exact HR|]. split; [exact HX|]. split; [exact HC|]. cbn [e_running e_frozen with_times e_armed e_hold]. intros H1 H2. destruct (HI H1 H2) as [H|[H|[H|H]]]; auto.
  left. destruct (next_time_spec _ HS2) as [[_ H']|(H0 & _)]; [exact H'|]. destruct (next_time_spec _ HS) as [[H0' _]|(H0' & t & _ & _ & Hp & x & Hx & HA & _)]; [lia|]. exfalso. eapply H; eauto.
Qed.

Lemma remove1_in : forall x l l', remove1 x l = Some l' -> In x l /\ (forall y, In y l -> y = x \/ In y l') /\ forall y, In y l' -> In y l.
Proof.
  intros [a b] l. induction l as [|[c d] l IH]; intros l' H; [discriminate|]. cbn [remove1 fst snd] in H. destruct ((a =? c) && Bool.eqb b d) eqn:E.
  - inversion H; subst. apply andb_prop in E. destruct E as [E1 E2]. apply eqb_prop in E2. assert (a = c) by lia. subst. split; [left; auto|]. split; [|right; auto]. intros y [->|Hy]; auto.
  - destruct (remove1 (a, b) l) as [l1|]; [|discriminate]. inversion H; subst. destruct (IH l1 eq_refl) as (H1 & H2 & H3). split; [right; auto|]. split; [|intros y [->|Hy]; [left; auto|right; auto]]. intros y [->|Hy]; [right; left; auto|]. destruct (H2 y Hy); auto. right; right; auto.
Qed.

Lemma inv_step : forall s e e', Inv e -> run s e = Some e' -> Inv e'.
Proof.
  intros s e e' HInv H. pose proof HInv as (HS & HR & HX & HC & HI). pose proof HS as (ST & SF & SP & SC & SV).
  destruct s as [dt|l|t|t|t user| | | | | | | | | |]; cbn [run] in H.
  - destruct (dt <? 0) eqn:E; [discriminate|]. inversion H; subst. split; [repeat split; auto; cbn; lia|]. split; [auto|]. split; [auto|]. split; [auto|]. exact HI.
  - destruct (negb (lock_free e) || _) eqn:E; [discriminate|]. inversion H; subst. apply orb_false_iff in E. destruct E as [E1 E2]. apply inv_schedule; auto; [unfold lock_free in E1; destruct (e_hold e); auto; discriminate|destruct (forallb _ l); auto; discriminate].
  - destruct (valid_event t) eqn:V; cbn [negb] in H; [|discriminate]. inversion H; subst. split; [split; [auto|]; split; [cbn; rewrite zlen_zset; [auto|unfold valid_event, EV_COUNT in V; lia]|]; split; [auto|]; split; [auto|]; cbn; constructor; auto|]. split; [auto|]. split; [auto|]. split; [auto|]. intros _ _. right. right. right. right. exists t. left. reflexivity.
  - destruct (valid_event t) eqn:V; cbn [negb] in H; [|discriminate]. pose proof V as V'. unfold valid_event, EV_COUNT in V. destruct (negb (e_running e) && negb (e_frozen e) && _) eqn:E; inversion H; subst.
    + destruct (e_running e) eqn:ER; [discriminate|]. destruct HX as [(_ & HX & HY)|[(HX & _)|(HX & _)]]; try discriminate. split; [repeat split; cbn; auto; [rewrite zlen_zset by lia; auto|apply zset_shape; auto; lia]|]. split; [auto|]. split; [right; left; cbn; repeat split; auto; lia|]. split; [auto|]. discriminate.
    + split; [repeat split; auto; cbn; constructor; auto|]. split; [auto|]. split; [auto|]. split; [auto|]. cbn. intros H1 H2. destruct (HI H1 H2) as [Q|[Q|[Q|[Q|(u & Q)]]]]; auto; right; right; right; [left; auto|right; exists u; right; auto].
  - destruct (lock_free e) eqn:E; cbn [negb] in H; [|discriminate]. destruct (remove1 (t, user) (e_plan e)) as [pl|] eqn:ER; [|discriminate]. inversion H; subst. destruct (remove1_in _ _ _ ER) as (HIn0 & HIn & HIn2). unfold lock_free in E.
    assert (EH : e_hold e = Free) by (destruct (e_hold e); auto; discriminate). set (e1 := with_calls e pl (if user then e_resched e + 1 else e_resched e)).
    assert (HI1 : Inv e1).
    { split; [repeat split; auto; cbn; apply Forall_forall; intros y Hy; rewrite Forall_forall in SV; apply SV; apply HIn2; auto|]. split; [cbn; destruct user; lia|]. split; [exact HX|]. split; [exact HC|]. intros H1 H2. destruct (HI H1 H2) as [Q|[Q|[Q|[Q|(u & Q)]]]]; [left; auto|auto|auto|right; right; right; left; cbn; destruct user; lia|]. right; right; right. destruct (HIn _ Q) as [EQ|Q']; [inversion EQ; subst; left; cbn; lia|right; exists u; auto]. }
    apply (inv_schedule e1 [(t, now e)] HI1 EH). cbn [forallb fst]. rewrite Forall_forall in SV. pose proof (SV _ HIn0) as VV. cbn [fst] in VV. rewrite VV. reflexivity.
  - destruct (negb (lock_free e) || _) eqn:E; [discriminate|]. inversion H; subst. apply inv_reschedule; auto. cbn. lia.
  - destruct (e_hold e) as [|d|] eqn:EH; inversion H; subst.
    + split; [auto|]. split; [auto|]. split; [auto|]. split; [discriminate|]. intros _ _. right. left. discriminate.
    + split; [auto|]. split; [auto|]. split; [auto|]. split; [discriminate|]. cbn. intros _ H2. rewrite (HC eq_refl) in H2. discriminate.
  - destruct (e_armed e) as [d|] eqn:EA; [|discriminate]. destruct (e_clock e <? d) eqn:ED; [discriminate|]. destruct (negb (e_running e) && negb (e_frozen e)) eqn:EG; inversion H; subst.
    + destruct (e_running e) eqn:ER; [discriminate|]. destruct HX as [(_ & HX & HY)|[(HX & _)|(HX & _)]]; try discriminate. split; [auto|]. split; [auto|]. split; [right; left; cbn; repeat split; auto; lia|]. split; [auto|]. discriminate.
    + split; [auto|]. split; [auto|]. split; [auto|]. split; [auto|]. cbn. intros H1 H2. rewrite H1, H2 in EG. discriminate.
  - destruct (e_tasks e <=? 0) eqn:ET; [discriminate|]. destruct HX as [(_ & HX & _)|[(HX & HY & HZ)|(_ & HX & _)]]; try lia. destruct (next_spec e HS) as [[HN HNo]|[HN HNx]].
    + rewrite HN in H. cbn in H. inversion H; subst. split; [auto|]. split; [auto|]. split; [left; cbn; repeat split; auto; lia|]. split; [auto|]. intros _ _. left. exact HNo.
    + rewrite HN in H. cbn [negb] in H. unfold valid_event, EV_COUNT in HN. inversion H; subst. split; [repeat split; cbn; auto; try (rewrite zlen_zset by lia; auto); apply zset_shape; auto; lia|]. split; [auto|]. split; [right; right; cbn; repeat split; auto; [lia|eauto]|]. split; [auto|]. cbn. congruence.
  - destruct (e_exec e) as [t|] eqn:EE; [|discriminate]. inversion H; subst. destruct HX as [(_ & _ & HX)|[(_ & _ & HX)|(HX & HY & HZ)]]; try congruence. split; [auto|]. split; [auto|]. split; [right; right; auto|]. split; [auto|]. cbn. congruence.
  - destruct (e_exec e) as [t|] eqn:EE; [|discriminate]. destruct (negb (lock_free e)); [discriminate|]. inversion H; subst. destruct HX as [(_ & _ & HX)|[(_ & _ & HX)|(HX & HY & HZ)]]; try congruence. apply inv_reschedule; auto.
  - destruct (negb (lock_free e)); [discriminate|]. inversion H; subst. split; [auto|]. split; [auto|]. split; [auto|]. split; [auto|]. discriminate.
  - destruct (negb (lock_free e)); [discriminate|]. inversion H; subst. apply inv_reschedule; auto.
  - destruct (e_wait e); try discriminate. destruct (e_frozen e) eqn:EF; [|discriminate]. inversion H; subst. split; [auto|]. split; [auto|]. split; [auto|]. split; [auto|]. discriminate.
  - destruct (e_wait e); try discriminate. inversion H; subst. split; [auto|]. split; [auto|]. split; [auto|]. split; [auto|]. exact HI.
Qed.

Lemma inv_new : forall clock uf, 1000 <= clock -> Inv (events_new clock uf).
Proof.
  intros clock uf H. split; [split; [reflexivity|]; split; [reflexivity|]; split; [repeat constructor; lia|]; split; [auto|constructor]|]. split; [cbn; lia|]. split; [left; auto|]. split; [discriminate|].
  intros _ _. left. intros t x [Ht Hx]. exfalso. assert (HG : In x (repeat 0 14)) by (unfold zget in Ht; destruct (t <? 0); [discriminate|]; eapply nth_error_In; exact Ht). apply repeat_spec in HG. auto.
Qed.
Lemma inv_runs : forall e l e', runs e l e' -> Inv e -> Inv e'.
Proof. intros e l e' H. induction H; intros HI; eauto using inv_step. Qed.
Lemma reachable_inv : forall e, reachable e -> Inv e.
Proof. intros e (clock & uf & l & Hc & H). eapply inv_runs; eauto. apply inv_new; auto. Qed.
Lemma runs_app : forall a l b m c, runs a l b -> runs b m c -> runs a (l ++ m) c.
Proof. intros a l b m c H. induction H; intros HB; cbn [app]; auto. econstructor; eauto. Qed.

(** ** C35 *)
(** At most one event of the zone runs or waits for a worker at a time. *)
Theorem c35_one_at_a_time : forall e, reachable e -> 0 <= e_tasks e /\ e_tasks e + (match e_exec e with None => 0 | Some _ => 1 end) <= 1.
Proof. intros e H. destruct (reachable_inv e H) as (_ & _ & HX & _). destruct HX as [(_ & -> & ->)|[(_ & -> & ->)|(_ & -> & t & ->)]]; lia. Qed.

(** The event that is started is planned, allowed, and no allowed event is planned for an earlier time. Its
    plan and the request of the user are then done; nothing else changes in the plans. If a worker starts nothing, nothing allowed is planned. *)
Theorem c35_earliest : forall e e', reachable e -> run WrapStart e = Some e' ->
  match e_exec e' with
  | Some t => exists x, planned e t x /\ allowed e t /\ (forall j y, planned e j y -> allowed e j -> x <= y) /\
      (forall j, zget (e_time e') j = if j =? t then Some 0 else zget (e_time e) j) /\ (forall j, zget (e_forced e') j = if j =? t then Some false else zget (e_forced e) j)
  | None => (forall t x, planned e t x -> ~ allowed e t) /\ e_time e' = e_time e /\ e_forced e' = e_forced e
  end.
Proof.
  intros e e' HR H. destruct (reachable_inv e HR) as (HS & _ & HX & _). cbn [run] in H. destruct (e_tasks e <=? 0) eqn:ET; [discriminate|]. assert (EX : e_exec e = None) by (destruct HX as [(_ & HX & _)|[(_ & _ & HX)|(_ & HX & _)]]; auto; lia). pose proof HS as (HT & HF & _).
  destruct (next_spec e HS) as [[HN HNo]|[HN (x & HP & HA & HM)]].
  - rewrite HN in H. cbn in H. inversion H; subst. cbn. rewrite EX. auto.
  - rewrite HN in H. cbn [negb] in H. unfold valid_event, EV_COUNT in HN. inversion H; subst. cbn. exists x. do 3 (split; [auto|]). split; intros j; rewrite zget_zset by lia; reflexivity.
Qed.

(** A plan does not get lost: in a step of any thread, the time of a planned event becomes earlier at most, unless the
    event starts, or a caller of zone_events_schedule_at cancels it, which is not possible while it is requested by
    the user. *)
Definition cancels (s : step) (t : Z) : Prop := exists l, s = ScheduleAt l /\ In (t, 0) l.
Lemma update_timers_keeps : forall l e t x, shape e -> forallb (fun x => valid_event (fst x)) l = true -> planned e t x -> 
  (In (t, 0) l /\ zget (e_forced e) t <> Some true) \/ exists x', planned (update_timers e l) t x' /\ x' <= x.
Proof.
  induction l as [|[u pl] l IH]; intros e t x HS HV HP; cbn [update_timers]; [right; exists x; split; [auto|lia]|].
  cbn [forallb fst] in HV. apply andb_prop in HV. destruct HV as [V1 V2]. unfold valid_event, EV_COUNT in V1. pose proof HS as (ST & SF & SP & SC & SV).
  destruct (pl <? 0) eqn:E; [destruct (IH e t x HS V2 HP) as [[H1 H2]|H]; auto; left; split; [right; auto|auto]|].
  destruct ((get_time e u =? 0) || ((pl =? 0) && negb (is_forced e u)) || _) eqn:EC; [|destruct (IH e t x HS V2 HP) as [[H1 H2]|H]; auto; left; split; [right; auto|auto]].
  assert (HS1 : shape (set_time e u pl)) by (unfold set_time; repeat split; cbn; auto; [rewrite zlen_zset by lia; auto|apply zset_shape; auto; lia]).
  destruct (Z.eq_dec u t) as [->|Hne].
  - destruct HP as [HP HPn]. unfold get_time in EC. rewrite HP in EC. unfold is_forced in EC. destruct (Z.eq_dec pl 0) as [->|Hpl].
    + destruct (zget (e_forced e) t) as [[]|] eqn:EF; [cbn in EC; lia| |]; left; (split; [left; auto|discriminate]).
    + assert (HP2 : planned (set_time e t pl) t pl) by (split; [cbn; rewrite zget_zset by lia; rewrite Z.eqb_refl; auto|auto]). destruct (IH _ t pl HS1 V2 HP2) as [[H1 H2]|(x' & H1 & H2)]; [left; split; [right; auto|auto]|right]. exists x'. split; [auto|]. lia.
  - assert (HP2 : planned (set_time e u pl) t x) by (destruct HP; split; [cbn; rewrite zget_zset by lia; replace (t =? u) with false by lia; auto|auto]). destruct (IH _ t x HS1 V2 HP2) as [[H1 H2]|H]; [left; split; [right; auto|auto]|auto].
Qed.
Lemma schedule_at_times : forall e l, e_time (schedule_at e l) = e_time (update_timers e l).
Proof. intros e l. unfold schedule_at, reschedule. destruct (negb _); auto. destruct (_ || _); auto. destruct (negb _); auto. Qed.
Lemma reschedule_times : forall e, e_time (reschedule e) = e_time e.
Proof. intros e. unfold reschedule. destruct (_ || _); auto. destruct (negb _); auto. Qed.
Theorem c35_not_lost : forall s e e' t x, reachable e -> run s e = Some e' -> planned e t x ->
  (exists x', planned e' t x' /\ x' <= x) \/ starts s e e' t \/ (cancels s t /\ zget (e_forced e) t <> Some true).
Proof.
  intros s e e' t x HR H HP. pose proof H as HRun. pose proof (reachable_inv e HR) as (HS & _ & HX & _). pose proof HS as (ST & SF & SP & SC & SV).
  assert (SAME : e_time e' = e_time e -> exists x', planned e' t x' /\ x' <= x) by (intros HE; exists x; split; [unfold planned; rewrite HE; auto|lia]).
  assert (X1 : 1 <= x). { destruct HP as [HP HN]. rewrite Forall_forall in SP. assert (0 <= x) by (apply SP; unfold zget in HP; destruct (t <? 0); [discriminate|]; eapply nth_error_In; exact HP). lia. }
  destruct s as [dt|l|u|u|u user| | | | | | | | | |]; cbn [run] in H.
  - destruct (dt <? 0); inversion H; subst. left. apply SAME. reflexivity.
  - destruct (negb (lock_free e) || _) eqn:E; [discriminate|]. inversion H; subst. apply orb_false_iff in E. destruct E as [_ E]. apply negb_false_iff in E. destruct (update_timers_keeps l e t x HS E HP) as [[H1 H2]|(x' & H1 & H2)]; [right; right; split; [exists l; auto|auto]|left]. exists x'. split; [|auto]. unfold planned. rewrite schedule_at_times. auto.
  - destruct (negb (valid_event u)); inversion H; subst. left. apply SAME. reflexivity.
  - destruct (valid_event u) eqn:V; cbn [negb] in H; [|discriminate]. destruct (negb (e_running e) && negb (e_frozen e) && _); inversion H; subst; left; [|apply SAME; reflexivity]. unfold valid_event, EV_COUNT in V. cbn. unfold planned. cbn. destruct (Z.eq_dec u t) as [->|Hne]; [exists 1|exists x]; (split; [split|]); try rewrite zget_zset by lia; try (rewrite Z.eqb_refl; auto); try (replace (t =? u) with false by lia; apply HP); try apply HP; lia.
  - destruct (negb (lock_free e)); [discriminate|]. destruct (remove1 (u, user) (e_plan e)) as [pl|] eqn:ER; [|discriminate]. inversion H; subst. destruct (remove1_in _ _ _ ER) as (HIn & _). rewrite Forall_forall in SV. pose proof (SV _ HIn) as VV. cbn [fst] in VV.
    set (e1 := with_calls e pl (if user then e_resched e + 1 else e_resched e)).
    assert (HS1 : shape e1). { repeat split; auto. cbn. apply Forall_forall. intros y Hy. apply SV. eapply remove1_in; eauto. }
    destruct (update_timers_keeps [(u, now e)] e1 t x HS1 ltac:(cbn [forallb fst]; rewrite VV; reflexivity) HP) as [[[H1|[]] H2]|(x' & H1 & H2)].
    + inversion H1 as [[Q1 Q2]]. exfalso. unfold now in Q2. pose proof (Z.div_le_mono 1000 (e_clock e) 1000 ltac:(lia) ltac:(lia)). change (1000 / 1000) with 1 in *. lia.
    + left. exists x'. split; [|auto]. unfold planned. rewrite schedule_at_times. auto.
  - destruct (_ || _); [discriminate|]. inversion H; subst. left. apply SAME. rewrite reschedule_times. reflexivity.
  - destruct (e_hold e); inversion H; subst; left; apply SAME; reflexivity.
  - destruct (e_armed e); [|discriminate]. destruct (_ <? _); inversion H; subst; left; apply SAME; reflexivity.
  - destruct (e_tasks e <=? 0) eqn:ET; [discriminate|]. destruct (valid_event (get_next_event e)) eqn:V; cbn [negb] in H; inversion H; subst; [|left; apply SAME; reflexivity]. unfold valid_event, EV_COUNT in V. destruct (Z.eq_dec (get_next_event e) t) as [EQ|Hne].
    + right. left. split; [auto|]. split; [auto|]. cbn. rewrite EQ. reflexivity.
    + left. exists x. split; [|lia]. destruct HP. split; [cbn; rewrite zget_zset by lia; replace (t =? get_next_event e) with false by lia; auto|auto].
  - destruct (e_exec e); inversion H; subst. left. apply SAME. reflexivity.
  - destruct (e_exec e); [|discriminate]. destruct (negb _); inversion H; subst. left. apply SAME. rewrite reschedule_times. reflexivity.
  - destruct (negb _); inversion H; subst. left. apply SAME. reflexivity.
  - destruct (negb _); inversion H; subst. left. apply SAME. rewrite reschedule_times. reflexivity.
  - destruct (e_wait e); try discriminate. destruct (e_frozen e); inversion H; subst. left. apply SAME. reflexivity.
  - destruct (e_wait e); inversion H; subst. left. apply SAME. reflexivity.
Qed.

(** No lost wake-up: if an event may start, nothing runs and no call is in the middle, then the scheduler will call
    us; when the time comes, a worker starts the earliest event. *)
Theorem c35_woken : forall e t x, reachable e -> quiet e -> e_running e = false -> e_frozen e = false -> planned e t x -> allowed e t ->
  exists d, e_armed e = Some d /\
    forall dt, 0 <= dt -> d <= e_clock e + dt -> exists e' u y, runs e [Advance dt; Fire; WrapStart] e' /\ e_exec e' = Some u /\ planned e u y /\ y <= x.
Proof.
  intros e t x HR (Q1 & Q2 & Q3) HRun HFr HP HA. pose proof (reachable_inv e HR) as (HS & _ & HX & _ & HI).
  destruct (HI HRun HFr) as [H|[H|[(d & H)|[H|(u & H)]]]]; [exfalso; eapply H; eauto| |congruence|lia|rewrite Q2 in H; destruct H].
  destruct (e_armed e) as [d|] eqn:EA; [|congruence]. exists d. split; [reflexivity|]. intros dt H0 Hd.
  assert (HT : e_tasks e = 0) by (destruct HX as [(_ & ? & _)|[(? & _)|(? & _)]]; congruence).
  destruct (next_spec e HS) as [[_ HN]|[HV (y & HPy & _ & HM)]]; [exfalso; eapply HN; eauto|].
  eexists. exists (get_next_event e), y. split; [|split; [|split; [exact HPy|eapply HM; eauto]]].
  - econstructor; [cbn [run]; replace (dt <? 0) with false by lia; reflexivity|]. econstructor; [cbn [run e_armed e_clock e_running e_frozen]; rewrite EA, HRun, HFr; replace (e_clock e + dt <? d) with false by lia; reflexivity|].
    econstructor; [|constructor]. cbn [run e_tasks negb andb]. rewrite HT. cbn [Z.leb Z.compare Z.add]. change (get_next_event _) with (get_next_event e) at 1. rewrite HV. reflexivity.
  - reflexivity.
Qed.

(** ... and the wake-up is not late: if threads do not sleep between the choice of the event and the call of the scheduler, then
    the call comes less than a second after the time of the event, or it is due. *)
Inductive prompt : events -> list step -> events -> Prop :=
| prompt_nil : forall e, prompt e [] e
| prompt_cons : forall e s e' l e'', run s e = Some e' -> (forall dt, s = Advance dt -> e_hold e = Free) -> prompt e' l e'' -> prompt e (s :: l) e''.
Definition timed (e : events) : Prop := e_running e = false -> e_frozen e = false ->
  none_next e \/ debt e \/ (e_hold e = Free /\ exists d, e_armed e = Some d /\ d <= Z.max (1000 * get_next_time e + 999) (e_clock e)) \/
  e_hold e = Arming (time_until e (get_next_time e)).

Lemma timed_reschedule : forall e, shape e -> timed (reschedule e).
Proof.
  intros e HS. unfold reschedule. destruct (e_running e || e_frozen e) eqn:E.
  - intros H1 H2. cbn in H1, H2. rewrite H1, H2 in E. discriminate.
  - destruct (next_spec e HS) as [[HN H]|[HN H]]; rewrite HN; cbn [negb]; [intros _ _; left; exact H|].
    intros _ _. right. right. right. cbn. unfold get_next_time. change (get_next_event (with_hold _ _)) with (get_next_event e). rewrite HN. reflexivity.
Qed.
Lemma timed_schedule : forall e l, Inv e -> timed e -> e_hold e = Free -> forallb (fun x => valid_event (fst x)) l = true -> timed (schedule_at e l).
Proof.
  intros e l (HS & _) HT HF HV. unfold schedule_at. destruct (update_timers_shape l e HS HV) as (ts & -> & HS2).
  destruct (get_next_time e =? get_next_time (with_times e ts)) eqn:E; cbn [negb]; [|apply timed_reschedule; auto].
  intros H1 H2. apply Z.eqb_eq in E. destruct (HT H1 H2) as [H|[H|[(H & d & HA & HB)|H]]].
  - left. destruct (next_time_spec _ HS2) as [[_ H']|(H0 & _)]; [exact H'|]. destruct (next_time_spec _ HS) as [[H0' _]|(H0' & t & _ & _ & Hp & x & Hx & HA & _)]; [lia|]. exfalso. eapply H; eauto.
  - right. left. exact H.
  - right. right. left. split; [exact H|]. exists d. split; [exact HA|]. rewrite <- E. exact HB.
  - congruence.
Qed.
Lemma timed_step : forall s e e', Inv e -> timed e -> (forall dt, s = Advance dt -> e_hold e = Free) -> run s e = Some e' -> timed e'.
Proof.
  intros s e e' HInv HT HAd H. pose proof HInv as (HS & HR & HX & HC & _). pose proof HS as (ST & SF & SP & SC & SV).
  destruct s as [dt|l|t|t|t user| | | | | | | | | |]; cbn [run] in H.
  - destruct (dt <? 0) eqn:E; [discriminate|]. inversion H; subst. specialize (HAd dt eq_refl). intros H1 H2. destruct (HT H1 H2) as [Q|[Q|[(Q & d & QA & QB)|Q]]]; [left; exact Q|right; left; exact Q| |congruence].
    right. right. left. split; [exact Q|]. exists d. split; [exact QA|]. change (get_next_time _) with (get_next_time e). cbn [e_clock]. lia.
  - destruct (negb (lock_free e) || _) eqn:E; [discriminate|]. inversion H; subst. apply orb_false_iff in E. destruct E as [E1 E2]. apply timed_schedule; auto; [unfold lock_free in E1; destruct (e_hold e); auto; discriminate|destruct (forallb _ l); auto; discriminate].
  - destruct (negb (valid_event t)); inversion H; subst. intros _ _. right. left. right. exists t. left. reflexivity.
  - destruct (valid_event t) eqn:V; cbn [negb] in H; [|discriminate]. destruct (negb (e_running e) && negb (e_frozen e) && _) eqn:E; inversion H; subst; [discriminate|].
    intros H1 H2. destruct (HT H1 H2) as [Q|[[Q|(u & Q)]|[Q|Q]]]; [left; exact Q|right; left; left; exact Q|right; left; right; exists u; right; exact Q|right; right; left; exact Q|right; right; right; exact Q].
  - destruct (lock_free e) eqn:E; cbn [negb] in H; [|discriminate]. destruct (remove1 (t, user) (e_plan e)) as [pl|] eqn:ER; [|discriminate]. inversion H; subst. destruct (remove1_in _ _ _ ER) as (HIn0 & HIn & HIn2). unfold lock_free in E.
    assert (EH : e_hold e = Free) by (destruct (e_hold e); auto; discriminate). set (e1 := with_calls e pl (if user then e_resched e + 1 else e_resched e)).
    assert (VV : valid_event t = true) by (rewrite Forall_forall in SV; apply (SV _ HIn0)).
    assert (HI1 : Inv e1 /\ timed e1).
    { assert (HT1 : timed e1). { intros H1 H2. destruct (HT H1 H2) as [Q|[[Q|(u & Q)]|[Q|Q]]]; [left; exact Q|right; left; left; cbn; destruct user; lia| |right; right; left; exact Q|right; right; right; exact Q].
        right. left. destruct (HIn _ Q) as [EQ|Q']; [inversion EQ; subst; left; cbn; lia|right; exists u; auto]. }
      split; [|exact HT1]. split; [repeat split; auto; cbn; apply Forall_forall; intros y Hy; rewrite Forall_forall in SV; apply SV; apply HIn2; auto|]. split; [cbn; destruct user; lia|]. split; [exact HX|]. split; [exact HC|].
      intros H1 H2. destruct (HT1 H1 H2) as [Q|[Q|[(_ & d & Q & _)|Q]]]; [left; exact Q|right; right; right; exact Q|right; left; congruence|right; right; left; eauto]. }
    apply (timed_schedule e1 [(t, now e)] (proj1 HI1) (proj2 HI1) EH). cbn [forallb fst]. rewrite VV. reflexivity.
  - destruct (negb (lock_free e) || _) eqn:E; [discriminate|]. inversion H; subst. apply timed_reschedule; auto.
  - destruct (e_hold e) as [|d|] eqn:EH; inversion H; subst.
    + intros H1 H2. destruct (HT H1 H2) as [Q|[Q|[(Q & _)|Q]]]; [left; exact Q|right; left; exact Q|congruence|]. right. right. left. split; [reflexivity|]. eexists. split; [reflexivity|].
      change (get_next_time _) with (get_next_time e). cbn [e_clock]. rewrite EH in Q. inversion Q as [Q']. unfold time_until, now in *. pose proof (Z.div_mod (e_clock e) 1000 ltac:(lia)). pose proof (Z.mod_pos_bound (e_clock e) 1000 ltac:(lia)).
      destruct (e_clock e / 1000 <? get_next_time e) eqn:EE; [|cbn; lia]. pose proof (Z.mod_le ((get_next_time e - e_clock e / 1000) * 1000) (2 ^ 32) ltac:(lia) ltac:(lia)). lia.
    + intros H1 H2. cbn in H2. rewrite (HC eq_refl) in H2. discriminate.
  - destruct (e_armed e) as [d|] eqn:EA; [|discriminate]. destruct (e_clock e <? d) eqn:ED; [discriminate|]. destruct (negb (e_running e) && negb (e_frozen e)) eqn:EG; inversion H; subst; [discriminate|].
    intros H1 H2. cbn in H1, H2. rewrite H1, H2 in EG. discriminate.
  - destruct (e_tasks e <=? 0) eqn:ET; [discriminate|]. destruct (next_spec e HS) as [[HN HNo]|[HN HNx]]; rewrite HN in H; cbn in H; inversion H; subst; [intros _ _; left; exact HNo|].
    destruct HX as [(_ & HX & _)|[(HX & HY & HZ)|(_ & HX & _)]]; try lia. intros H1. cbn in H1. congruence.
  - destruct (e_exec e) as [t|] eqn:EE; [|discriminate]. inversion H; subst. destruct HX as [(_ & _ & HX)|[(_ & _ & HX)|(HX & HY & HZ)]]; try congruence. intros H1. cbn in H1. congruence.
  - destruct (e_exec e) as [t|] eqn:EE; [|discriminate]. destruct (negb (lock_free e)); [discriminate|]. inversion H; subst. apply timed_reschedule. auto.
  - destruct (negb (lock_free e)); [discriminate|]. inversion H; subst. discriminate.
  - destruct (negb (lock_free e)); [discriminate|]. inversion H; subst. apply timed_reschedule. auto.
  - destruct (e_wait e); try discriminate. destruct (e_frozen e) eqn:EF; [|discriminate]. inversion H; subst. discriminate.
  - destruct (e_wait e); try discriminate. inversion H; subst. exact HT.
Qed.
Lemma prompt_timed : forall e l e', prompt e l e' -> Inv e -> timed e -> Inv e' /\ timed e'.
Proof. intros e l e' H. induction H; intros HI HT; auto. apply IHprompt; [eapply inv_step; eauto|eapply timed_step; eauto]. Qed.
Theorem c35_on_time : forall clock uf l e t x, 1000 <= clock -> prompt (events_new clock uf) l e ->
  quiet e -> e_running e = false -> e_frozen e = false -> planned e t x -> allowed e t ->
  exists d, e_armed e = Some d /\ d <= Z.max (1000 * x + 999) (e_clock e).
Proof.
  intros clock uf l e t x HC HP (Q1 & Q2 & Q3) HRun HFr Hp HA.
  destruct (prompt_timed _ _ _ HP (inv_new clock uf HC)) as [(HS & _) HT].
  { intros _ _. left. intros u y [Ht Hx]. exfalso. assert (HG : In y (repeat 0 14)) by (unfold zget in Ht; destruct (u <? 0); [discriminate|]; eapply nth_error_In; exact Ht). apply repeat_spec in HG. auto. }
  destruct (HT HRun HFr) as [H|[[H|(u & H)]|[(_ & d & H1 & H2)|H]]]; [exfalso; eapply H; eauto|lia|rewrite Q2 in H; destruct H| |congruence].
  exists d. split; [auto|]. assert (get_next_time e <= x); [|lia]. destruct (next_time_spec e HS) as [[_ HN]|(_ & u' & _ & _ & HPu & HNx)]; [exfalso; eapply HN; eauto|].
  destruct HNx as (z & HPz & _ & HMz). specialize (HMz t x Hp HA). destruct HPu as [E1 _], HPz as [E2 _]. rewrite E1 in E2. inversion E2. lia.
Qed.

(** While the events are frozen and nothing runs, nothing starts until zone_events_start; the end of the wait of
    zone_events_freeze_blocking means that nothing runs. *)
Theorem c35_frozen : forall e l e', reachable e -> e_frozen e = true -> e_running e = false -> runs e l e' -> ~ In Start l ->
  e_frozen e' = true /\ e_running e' = false /\ e_tasks e' = 0 /\ e_exec e' = None.
Proof.
  intros e l e' HR HF HN H. apply reachable_inv in HR. induction H as [e|e s e1 l e2 H1 H2 IH]; intros HIn.
  - destruct HR as (_ & _ & HX & _). destruct HX as [(_ & ? & ?)|[(? & _)|(? & _)]]; auto; congruence.
  - assert (HX : e_tasks e = 0 /\ e_exec e = None) by (destruct HR as (_ & _ & HX & _); destruct HX as [(_ & ? & ?)|[(? & _)|(? & _)]]; auto; congruence). destruct HX as [X1 X2].
    assert (HSch : forall e0 m, e_frozen (schedule_at e0 m) = e_frozen (update_timers e0 m) /\ e_running (schedule_at e0 m) = e_running (update_timers e0 m)).
    { intros e0 m. unfold schedule_at, reschedule. destruct (negb _); auto. destruct (_ || _); auto. destruct (negb _); auto. }
    assert (HUpd : forall m e0, e_frozen (update_timers e0 m) = e_frozen e0 /\ e_running (update_timers e0 m) = e_running e0).
    { induction m as [|[u p] m IHm]; intros e0; cbn [update_timers]; auto. destruct (p <? 0); auto. destruct (IHm (if (get_time e0 u =? 0) || (p =? 0) && negb (is_forced e0 u) || (p >? 0) && (p <? get_time e0 u) then set_time e0 u p else e0)) as [-> ->]. destruct (_ || _ || _); auto. }
    assert (HRes : forall e0, e_frozen (reschedule e0) = e_frozen e0 /\ e_running (reschedule e0) = e_running e0).
    { intros e0. unfold reschedule. destruct (_ || _); auto. destruct (negb _); auto. }
    assert (HK : e_frozen e1 = true /\ e_running e1 = false).
    { destruct s as [dt|m|t|t|t user| | | | | | | | | |]; cbn [run] in H1.
      - destruct (dt <? 0); inversion H1; subst; auto.
      - destruct (_ || _); inversion H1; subst. destruct (HSch e m) as [-> ->]. destruct (HUpd m e) as [-> ->]. auto.
      - destruct (negb _); inversion H1; subst; auto.
      - destruct (negb (valid_event t)); [discriminate|]. rewrite HN, HF in H1. cbn in H1. inversion H1; subst; auto.
      - destruct (negb _); [discriminate|]. destruct (remove1 _ _); inversion H1; subst. match goal with |- e_frozen (schedule_at ?a ?b) = _ /\ _ => destruct (HSch a b) as [-> ->]; destruct (HUpd b a) as [-> ->] end. auto.
      - destruct (_ || _); inversion H1; subst. match goal with |- e_frozen (reschedule ?a) = _ /\ _ => destruct (HRes a) as [-> ->] end. auto.
      - destruct (e_hold e); inversion H1; subst; auto.
      - destruct (e_armed e); [|discriminate]. destruct (_ <? _); [discriminate|]. rewrite HN, HF in H1. cbn in H1. inversion H1; subst; auto.
      - rewrite X1 in H1. discriminate.
      - rewrite X2 in H1. discriminate.
      - rewrite X2 in H1. discriminate.
      - destruct (negb _); inversion H1; subst; auto.
      - exfalso. apply HIn. left. reflexivity.
      - destruct (e_wait e); try discriminate. destruct (e_frozen e); inversion H1; subst; auto.
      - destruct (e_wait e); inversion H1; subst; auto. }
    destruct HK as [K1 K2]. apply IH; auto; [eapply inv_step; eauto|]. intros Q. apply HIn. right. exact Q.
Qed.
Theorem c35_freeze_wait : forall e e', reachable e -> run WaitCheck e = Some e' -> e_wait e' = NoWait -> e_running e = false /\ e_tasks e' = 0 /\ e_exec e' = None.
Proof.
  intros e e' HR H HW. destruct (reachable_inv e HR) as (_ & _ & HX & _). cbn [run] in H. destruct (e_wait e); inversion H; subst. cbn in *. destruct (e_running e) eqn:ER; [discriminate|]. destruct HX as [(_ & ? & ?)|[(? & _)|(? & _)]]; auto; congruence.
Qed.

(** While the events are frozen, the scheduler has no entry of the zone. *)
Definition cold (e : events) : Prop := e_frozen e = true -> e_hold e = Cancelling \/ (e_hold e = Free /\ e_armed e = None).
Lemma cold_reschedule : forall e, (e_frozen e = true -> e_armed e = None) -> cold (reschedule e).
Proof.
  intros e H. unfold cold, reschedule. destruct (e_running e || e_frozen e) eqn:E; [intros HF; right; split; [reflexivity|apply H; exact HF]|].
  destruct (negb _); intros HF; cbn in HF; rewrite HF in E; destruct (e_running e); discriminate.
Qed.
Lemma update_timers_rest : forall l e, e_frozen (update_timers e l) = e_frozen e /\ e_armed (update_timers e l) = e_armed e /\ e_hold (update_timers e l) = e_hold e.
Proof. induction l as [|[u p] l IH]; intros e; cbn [update_timers]; auto. destruct (p <? 0); auto. destruct (_ || _ || _); rewrite (proj1 (IH _)), (proj1 (proj2 (IH _))), (proj2 (proj2 (IH _))); auto. Qed.
Lemma cold_schedule : forall e l, cold e -> e_hold e = Free -> cold (schedule_at e l).
Proof.
  intros e l HC HF. destruct (update_timers_rest l e) as (R1 & R2 & R3). unfold schedule_at. destruct (negb _).
  - apply cold_reschedule. rewrite R1, R2. intros H. destruct (HC H) as [Q|[_ Q]]; [congruence|auto].
  - unfold cold. rewrite R1, R2, R3. exact HC.
Qed.
Lemma cold_step : forall s e e', cold e -> run s e = Some e' -> cold e'.
Proof.
  intros s e e' HC H. assert (LF : lock_free e = true -> e_hold e = Free) by (unfold lock_free; destruct (e_hold e); auto; discriminate).
  assert (AR : lock_free e = true -> e_frozen e = true -> e_armed e = None) by (intros L F; destruct (HC F) as [Q|[_ Q]]; auto; rewrite (LF L) in Q; discriminate).
  destruct s as [dt|l|t|t|t user| | | | | | | | | |]; cbn [run] in H.
  - destruct (dt <? 0); inversion H; subst; exact HC.
  - destruct (lock_free e) eqn:L; cbn [negb orb] in H; [|discriminate]. destruct (negb _); inversion H; subst. apply cold_schedule; auto.
  - destruct (negb _); inversion H; subst; exact HC.
  - destruct (negb (valid_event t)); [discriminate|]. destruct (_ && _); inversion H; subst; exact HC.
  - destruct (lock_free e) eqn:L; cbn [negb] in H; [|discriminate]. destruct (remove1 _ _); inversion H; subst. apply cold_schedule; auto.
  - destruct (lock_free e) eqn:L; cbn [negb orb] in H; [|discriminate]. destruct (_ <=? _); inversion H; subst. apply cold_reschedule. cbn. auto.
  - destruct (e_hold e) eqn:EH; inversion H; subst; intros HF; cbn in *; [destruct (HC HF) as [Q|[Q _]]; congruence|right; auto].
  - destruct (e_armed e) eqn:EA; [|discriminate]. destruct (_ <? _); [discriminate|]. inversion H; subst. intros HF. cbn in HF. destruct (HC HF) as [Q|[Q QA]]; [left; exact Q|congruence].
  - destruct (_ <=? _); [discriminate|]. destruct (negb _); inversion H; subst; exact HC.
  - destruct (e_exec e); inversion H; subst; exact HC.
  - destruct (e_exec e); [|discriminate]. destruct (lock_free e) eqn:L; cbn [negb] in H; inversion H; subst. apply cold_reschedule. cbn. auto.
  - destruct (lock_free e) eqn:L; cbn [negb] in H; inversion H; subst. intros _. left. reflexivity.
  - destruct (lock_free e) eqn:L; cbn [negb] in H; inversion H; subst. apply cold_reschedule. discriminate.
  - destruct (e_wait e); try discriminate. destruct (e_frozen e) eqn:EF; inversion H; subst. intros _. apply HC. exact EF.
  - destruct (e_wait e); inversion H; subst; exact HC.
Qed.
Theorem c35_frozen_unarmed : forall e, reachable e -> e_frozen e = true -> quiet e -> e_armed e = None.
Proof.
  intros e (c & u & l & _ & H) HF (Q & _). assert (G : cold e). { assert (C0 : cold (events_new c u)) by discriminate. induction H; auto. apply IHruns; auto. eapply cold_step; eauto. }
  destruct (G HF) as [X|[_ X]]; congruence.
Qed.

(** ** What does not hold *)
Fixpoint exec (l : list step) (e : events) : option events :=
  match l with [] => Some e | s :: l => match run s e with None => None | Some e => exec l e end end.
Lemma exec_runs : forall l e e', exec l e = Some e' -> runs e l e'.
Proof. induction l as [|s l IH]; intros e e' H; cbn [exec] in H; [inversion H; constructor|]. destruct (run s e) eqn:E; [|discriminate]. econstructor; eauto. Qed.

(** An event may start before its time (here: expiration, planned a day ahead): the worker does not look whether the
    time has come. (1) The event for which the worker was called has been cancelled meanwhile. (2) The plan is more than 49.7
    days ahead, and the number of milliseconds does not fit in 32 bits. *)
Definition not_early : Prop := forall e e' t x, reachable e -> starts WrapStart e e' t -> planned e t x -> x <= now e.
Theorem c35_not_early_refuted : ~ not_early.
Proof.
  intros H. destruct (exec [ScheduleAt [(EV_NOTIFY, 1000)]; HoldEnd; Fire; ScheduleAt [(EV_NOTIFY, 0); (EV_EXPIRE, 87400)]] (events_new 1000000 false)) as [e|] eqn:E; [|vm_compute in E; discriminate].
  assert (HR : reachable e) by (exists 1000000, false; eexists; split; [lia|eapply exec_runs; exact E]). vm_compute in E. inversion E as [E']. clear E.
  rewrite <- E' in HR. assert (87400 <= 1000); [|lia]. refine (H _ _ EV_EXPIRE 87400 HR _ _); [split; [reflexivity|split; [vm_compute; reflexivity|reflexivity]]|split; [reflexivity|discriminate]].
Qed.
Theorem c35_far_plan_early_refuted : exists l e e', exec (ScheduleAt [(EV_EXPIRE, 1000 + 50 * 86400)] :: l) (events_new 1000000 false) = Some e /\ Forall (fun s => s = HoldEnd \/ s = Fire \/ exists dt, s = Advance dt) l /\
  starts WrapStart e e' EV_EXPIRE /\ now e < 1000 + 86400.
Proof.
  exists [HoldEnd; Advance 25032704; Fire]. eexists. eexists. split; [vm_compute; reflexivity|]. split; [repeat (apply Forall_cons; [solve [left; reflexivity|right; left; reflexivity|right; right; eexists; reflexivity]|]); apply Forall_nil|]. split; [split; [reflexivity|split; [vm_compute; reflexivity|reflexivity]]|vm_compute; reflexivity].
Qed.

(** The wait of zone_events_freeze_blocking may never end: a worker that finds nothing to do does not signal the end. *)
Definition asleep_forever (e : events) : Prop := e_running e = false /\ e_wait e = Asleep /\ forall l e', runs e l e' -> ~ In Start l -> e_wait e' = Asleep.
Lemma wait_kept : forall s e e', run s e = Some e' -> e_wait e = Asleep -> e_exec e = None -> e_wait e' = Asleep.
Proof.
  intros s e e' H HW HE.
  assert (HRes : forall e0, e_wait (reschedule e0) = e_wait e0) by (intros e0; unfold reschedule; destruct (_ || _); auto; destruct (negb _); auto).
  assert (HUpd : forall m e0, e_wait (update_timers e0 m) = e_wait e0).
  { induction m as [|[u p] m IHm]; intros e0; cbn [update_timers]; auto. destruct (p <? 0); auto. rewrite IHm. destruct (_ || _ || _); auto. }
  assert (HSch : forall e0 m, e_wait (schedule_at e0 m) = e_wait e0) by (intros e0 m; unfold schedule_at; destruct (negb _); [rewrite HRes|]; apply HUpd).
  destruct s as [dt|m|t|t|t user| | | | | | | | | |]; cbn [run] in H; rewrite ?HE, ?HW in H; try discriminate.
  - destruct (dt <? 0); inversion H; subst; auto.
  - destruct (_ || _); inversion H; subst. rewrite HSch. auto.
  - destruct (negb _); inversion H; subst; auto.
  - destruct (negb (valid_event t)); [discriminate|]. destruct (negb (e_running e) && negb (e_frozen e) && _); inversion H; subst; auto.
  - destruct (negb _); [discriminate|]. destruct (remove1 _ _); inversion H; subst. rewrite HSch. auto.
  - destruct (_ || _); inversion H; subst. rewrite HRes. auto.
  - destruct (e_hold e); inversion H; subst; auto.
  - destruct (e_armed e); [|discriminate]. destruct (_ <? _); inversion H; subst; auto.
  - destruct (_ <=? _); [discriminate|]. destruct (negb _); inversion H; subst; auto.
  - destruct (negb _); inversion H; subst; auto.
  - destruct (negb _); inversion H; subst. rewrite HRes. auto.
Qed.
Theorem c35_freeze_wait_refuted : exists e, reachable e /\ asleep_forever e.
Proof.
  destruct (exec [ScheduleAt [(EV_NOTIFY, 1000)]; HoldEnd; Fire; ScheduleAt [(EV_NOTIFY, 0)]; Freeze; HoldEnd; WaitBegin; WaitCheck; WrapStart] (events_new 1000000 false)) as [e|] eqn:E; [|vm_compute in E; discriminate].
  assert (HR : reachable e) by (exists 1000000, false; eexists; split; [lia|eapply exec_runs; exact E]). exists e. split; [auto|]. assert (HW : e_running e = false /\ e_frozen e = true /\ e_wait e = Asleep) by (vm_compute in E; inversion E; auto). clear E. destruct HW as (H1 & H2 & H3). split; [auto|]. split; [auto|].
  assert (G : forall e1 l e', runs e1 l e' -> reachable e1 -> e_running e1 = false -> e_frozen e1 = true -> e_wait e1 = Asleep -> ~ In Start l -> e_wait e' = Asleep).
  { intros e1 l e' H. induction H as [e1|e1 s e2 l e3 S1 S2 IH]; intros R1 A1 A2 A3 HIn; auto.
    assert (RS : runs e1 [s] e2) by (econstructor; [exact S1|constructor]).
    destruct (c35_frozen e1 [s] e2 R1 A2 A1 RS) as (B1 & B2 & _); [intros [Q|[]]; apply HIn; left; auto|].
    destruct (c35_frozen e1 [] e1 R1 A2 A1 ltac:(constructor)) as (_ & _ & _ & B3); [intros []|].
    apply IH; auto; [|eapply wait_kept; eauto|intros Q; apply HIn; right; auto]. destruct R1 as (c & u & l0 & Hc & HR1). exists c, u, (l0 ++ [s]). split; [auto|]. eapply runs_app; eauto. }
  intros l e' H HIn. eapply G; eauto.
Qed.

(** ** A case: updates are frozen by the user, a refresh waits although it is earlier, a notify is sent, the user forces the refresh. *)
Example c35_case : exists e d, 
  prompt (events_new 1000000 true) [ScheduleAt [(EV_REFRESH, 1000); (EV_NOTIFY, 1005)]; HoldEnd] e /\ quiet e /\ e_running e = false /\ e_frozen e = false /\
  planned e EV_NOTIFY 1005 /\ allowed e EV_NOTIFY /\ planned e EV_REFRESH 1000 /\ ~ allowed e EV_REFRESH /\ e_armed e = Some d /\ d = 1005000.
Proof.
  eexists. eexists. split; [econstructor; [vm_compute; reflexivity|discriminate|]; econstructor; [vm_compute; reflexivity|discriminate|constructor]|].
  split; [repeat split|]. do 2 (split; [reflexivity|]). split; [split; [reflexivity|discriminate]|]. split; [right; right; vm_compute; intuition discriminate|]. split; [split; [reflexivity|discriminate]|]. split; [|split; reflexivity].
  intros [H|[H|H]]; [discriminate|discriminate|]. apply H. vm_compute. auto.
Qed.
Example c35_user_case : exists e e', reachable e /\ starts WrapStart e e' EV_REFRESH /\ e_ufrozen e = true.
Proof.
  destruct (exec [ScheduleAt [(EV_REFRESH, 1000); (EV_NOTIFY, 1005)]; HoldEnd; UserForce EV_REFRESH; Plan EV_REFRESH true; UserResched; HoldEnd; Fire] (events_new 1000000 true)) as [e|] eqn:E; [|vm_compute in E; discriminate].
  assert (HR : reachable e) by (exists 1000000, true; eexists; split; [lia|eapply exec_runs; exact E]). exists e. vm_compute in E. inversion E as [E']. clear E. eexists. split; [rewrite E'; exact HR|]. split; [split; [reflexivity|split; [vm_compute; reflexivity|reflexivity]]|reflexivity].
Qed.

Print Assumptions c35_one_at_a_time.
Print Assumptions c35_earliest.
Print Assumptions c35_not_lost.
Print Assumptions c35_woken.
Print Assumptions c35_on_time.
Print Assumptions c35_frozen.
Print Assumptions c35_freeze_wait.
Print Assumptions c35_frozen_unarmed.
Print Assumptions c35_not_early_refuted.
Print Assumptions c35_far_plan_early_refuted.
Print Assumptions c35_freeze_wait_refuted.
