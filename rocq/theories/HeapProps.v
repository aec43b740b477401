(** C34: the event heap and the event scheduler. The meaning of the operations on the calendar is
    [cal_step] in HeapSpec.v. *)
From Verif Require Import Base HeapModel HeapSpec HeapProofs.

(** *** times *)
Definition usec (t : timeval) : Z := fst t * 1000000 + snd t.
Definition tv_ok (t : timeval) : Prop := 0 <= snd t < 1000000.

(** The time of an event is exactly now plus the requested milliseconds. *)
Theorem c34_timeval_in : forall now dt, tv_ok now -> 0 <= dt < 2 ^ 32 ->
  tv_ok (timeval_in now dt) /\ usec (timeval_in now dt) = usec now + dt * 1000.
Proof.
  intros [sec us] dt H Hd. unfold tv_ok, timeval_in, usec in *. cbn [fst snd] in *.
  destruct (us + dt mod 1000 * 1000 >? 999999) eqn:E; cbn [fst snd]; lia.
Qed.
Lemma timer_lt_spec : forall a b, tv_ok a -> tv_ok b -> timer_lt a b = (usec a <? usec b).
Proof.
  intros [a1 a2] [b1 b2] Ha Hb. unfold timer_lt, usec, tv_ok in *. cbn [fst snd] in *. destruct (a1 =? b1) eqn:E; lia.
Qed.
Lemma cmp_events : forall tv, preorder (compare_event_heap_nodes tv).
Proof.
  intros tv. unfold preorder, compare_event_heap_nodes, timer_lt. split.
  - intros x y. destruct (tv x) as [a1 a2], (tv y) as [b1 b2]. cbn [fst snd].
    destruct (a1 =? b1) eqn:E1, (b1 =? a1) eqn:E2; try lia; destruct (a2 <? b2) eqn:E3, (b2 <? a2) eqn:E4; try lia; destruct (a1 <? b1) eqn:E5, (b1 <? a1) eqn:E6; lia.
  - intros x y z. destruct (tv x) as [a1 a2], (tv y) as [b1 b2], (tv z) as [c1 c2]. cbn [fst snd]. intros H1 H2.
    assert (G1 : ~ (if a1 =? b1 then a2 <? b2 else a1 <? b1) = true) by (intros G; rewrite G in H1; lia).
    assert (G2 : ~ (if b1 =? c1 then b2 <? c2 else b1 <? c1) = true) by (intros G; rewrite G in H2; lia).
    assert (G3 : (if a1 =? c1 then a2 <? c2 else a1 <? c1) = false).
    { destruct (a1 =? b1) eqn:E1, (b1 =? c1) eqn:E2, (a1 =? c1) eqn:E3; lia. }
    rewrite G3. destruct (if c1 =? a1 then c2 <? a2 else c1 <? a1); lia.
Qed.

(** *** the heap with any comparison: each operation keeps exactly the right elements *)
(** [okheap cmp h p]: positions 1..num are filled, every element knows its position and is not
    smaller than its parent; [in_heap h x]: x is at one of these positions. *)
Theorem c34_head_is_minimal : forall cmp h p, preorder cmp -> okheap cmp h p -> 1 <= h_num h ->
  exists x, helem h 1 = Ok x /\ in_heap h x /\ forall y, in_heap h y -> 0 <= cmp y x.
Proof.
  intros cmp h p C [V O] Hn. destruct (valid_at _ _ 1 V) as (x & Ex & _ & Hx); [lia|]. exists x. split; [auto|].
  split; [exists 1; split; [lia|auto]|]. intros y (i & Hi & Ey). eapply head_min; eauto.
Qed.
Theorem c34_delmin : forall cmp h p, preorder cmp -> okheap cmp h p -> 1 <= h_num h ->
  exists x h' p', helem h 1 = Ok x /\ heap_delmin cmp h p = Ok (h', p') /\ okheap cmp h' p' /\ p' x = 0 /\
    (forall y, in_heap h' y <-> in_heap h y /\ y <> x).
Proof.
  intros cmp h p C K Hn. destruct (heap_delmin_spec cmp h p C K Hn) as (x & h' & p' & E1 & E2 & K' & N & P & I & _).
  exists x, h', p'. split; [|auto]. destruct K as [(V1 & V2 & V3) _]. apply helem_ok; auto. lia.
Qed.
Theorem c34_insert : forall cmp h p e, preorder cmp -> okheap cmp h p -> ~ in_heap h e -> 0 < h_max h < 2 ^ 30 ->
  exists h' p', heap_insert true cmp h p e = Ok (true, h', p') /\ okheap cmp h' p' /\
    (forall y, in_heap h' y <-> y = e \/ in_heap h y).
Proof.
  intros cmp h p e C K He Hm. destruct (heap_insert_spec cmp h p e C K He) as (h' & p' & E & K' & _ & I & _); try lia. eauto 6.
Qed.
Theorem c34_delete : forall cmp h p e, preorder cmp -> okheap cmp h p -> in_heap h e ->
  exists h' p', heap_delete true cmp h p (heap_find p e) = Ok (h', p') /\ okheap cmp h' p' /\ p' e = 0 /\
    (forall y, in_heap h' y <-> in_heap h y /\ y <> e).
Proof.
  intros cmp h p e C K He. destruct K as [V O]. destruct (in_heap_pos _ _ _ V He) as [H1 H2].
  destruct (heap_delete_spec cmp h p (p e) e C (conj V O) H1 H2) as (h' & p' & E & K' & _ & P & I & _). exists h', p'. auto.
Qed.
(** [cmp0] is the order when the heap was built, [cmp] the order after the key of [e] changed. *)
Theorem c34_replace : forall cmp cmp0 h p e, preorder cmp -> preorder cmp0 -> okheap cmp0 h p -> in_heap h e ->
  (forall a b, a <> e -> b <> e -> cmp a b = cmp0 a b) ->
  exists h' p', heap_replace cmp h p (heap_find p e) e = Ok (h', p') /\ okheap cmp h' p' /\
    (forall y, in_heap h' y <-> in_heap h y).
Proof.
  intros cmp cmp0 h p e C C0 K He Hc. pose proof K as [V O]. destruct (in_heap_pos _ _ _ V He) as [H1 H2].
  destruct (heap_replace_spec cmp cmp0 h p (p e) e e C C0 K H1 H2) as (h' & p' & E & K' & _ & _ & I & _); auto.
  exists h', p'. split; [auto|]. split; [auto|]. intros y. rewrite I. split; [intros [->|[? ?]]; auto|]. intros. destruct (Z.eq_dec y e); auto.
Qed.

(** *** histories of the scheduler *)
Inductive cmd : Type :=
| DoSchedule (ev : Z) (now : timeval) (dt : Z)
| DoCancel (ev : Z)
| DoTurn (now : timeval).
Definition cmd_ok (c : cmd) : Prop :=
  match c with DoSchedule _ now dt => tv_ok now /\ 0 <= dt < 2 ^ 32 | DoCancel _ => True | DoTurn now => tv_ok now end.

(** executing a command sequence (no operations interleave); the result lists what happened *)
Fixpoint exec (cs : list cmd) (s : sched) : res (list event_op * sched) :=
  match cs with
  | [] => Ok ([], s)
  | DoSchedule ev now dt :: cs =>
    let* s := evsched_schedule true now s ev dt in
    let* (os, s) := exec cs s in Ok (Schedule ev (usec now) dt :: os, s)
  | DoCancel ev :: cs =>
    let* s := evsched_cancel_locked true s ev in
    let s := evsched_cancel_reset s ev in
    let* (os, s) := exec cs s in Ok (Cancel ev :: os, s)
  | DoTurn now :: cs =>
    let* (fired, s) := evsched_turn now s in
    let* (os, s) := exec cs s in Ok (Turn (usec now) fired :: os, s)
  end.

Definition sched_ok (n : Z) (s : sched) : Prop :=
  okheap (compare_event_heap_nodes (s_tv s)) (s_heap s) (s_pos s) /\
  (forall x, ~ in_heap (s_heap s) x -> s_pos s x = 0) /\
  (forall x, tv_ok (s_tv s x)) /\
  h_num (s_heap s) <= n /\ 0 < h_max (s_heap s) <= 512 + 2 * n.
Definition cal_of (s : sched) : calendar := mkcal (in_heap (s_heap s)) (fun x => usec (s_tv s x)).

Lemma cmp_agree : forall tv tv' a b, tv a = tv' a -> tv b = tv' b -> compare_event_heap_nodes tv a b = compare_event_heap_nodes tv' a b.
Proof. intros tv tv' a b H1 H2. unfold compare_event_heap_nodes. rewrite H1, H2. auto. Qed.
Lemma okheap_agree : forall cmp cmp' h p, (forall a b, in_heap h a -> in_heap h b -> cmp a b = cmp' a b) -> okheap cmp h p -> okheap cmp' h p.
Proof.
  intros cmp cmp' h p H [V O]. split; auto. intros i Hi x y Hx Hy. rewrite <- H; [eapply (O i); eauto|exists i; split; [lia|auto]|exists (i / 2); split; [lia|auto]].
Qed.

Lemma schedule_step : forall n s ev now dt, sched_ok n s -> 0 <= n < 2 ^ 28 -> tv_ok now -> 0 <= dt < 2 ^ 32 ->
  exists s', evsched_schedule true now s ev dt = Ok s' /\ sched_ok (n + 1) s' /\ cal_step (cal_of s) (Schedule ev (usec now) dt) (cal_of s').
Proof.
  intros n s ev now dt (K & P & T & N1 & N2) Hn Hnow Hdt. pose proof K as [V O]. destruct (c34_timeval_in now dt Hnow Hdt) as [T1 T2].
  unfold evsched_schedule. cbv zeta. set (tv := upd (s_tv s) ev (timeval_in now dt)).
  assert (Tv : forall x, tv_ok (tv x)) by (intros x; unfold tv, upd; destruct (x =? ev); auto).
  assert (W : forall x, usec (tv x) = if x =? ev then usec now + dt * 1000 else usec (s_tv s x)) by (intros x; unfold tv, upd; destruct (x =? ev); auto).
  assert (A : forall a b, a <> ev -> b <> ev -> compare_event_heap_nodes tv a b = compare_event_heap_nodes (s_tv s) a b).
  { intros a b Ha Hb. apply cmp_agree; apply upd_neq; auto. }
  unfold heap_find. destruct (s_pos s ev >? 0) eqn:E.
  - assert (He : in_heap (s_heap s) ev).
    { destruct V as (V1 & V2 & V3). assert (D : in_heap (s_heap s) ev \/ ~ in_heap (s_heap s) ev).
      { destruct (Z_le_gt_dec (s_pos s ev) (h_num (s_heap s))) as [L|L].
        - destruct (V3 (s_pos s ev)) as (x & Ex & Px); [lia|]. destruct (Z.eq_dec x ev) as [->|N]; [left; exists (s_pos s ev); split; [lia|auto]|].
          right. intros (i & Hi & Ei). rewrite <- (valid_pos (s_heap s) (s_pos s) i ev) in Ei; [congruence|split; [auto|split; auto]|auto|auto].
        - right. intros (i & Hi & Ei). destruct (V3 i Hi) as (x & Ex & Px). assert (x = ev) by congruence. subst. lia. }
      destruct D as [D|D]; auto. apply P in D. lia. }
    destruct (in_heap_pos _ _ _ V He) as [H1 H2].
    destruct (heap_replace_spec (compare_event_heap_nodes tv) _ (s_heap s) (s_pos s) (s_pos s ev) ev ev (cmp_events tv) (cmp_events _) K H1 H2) as (h' & p' & -> & K' & M1 & M2 & I & J); auto.
    cbn [rbind]. eexists. split; [reflexivity|]. split.
    + split; [auto|]. cbn [s_heap s_pos s_tv]. split; [|split; [auto|lia]]. intros x Hx. rewrite J.
      * apply P. intros Hx2. apply Hx. apply I. destruct (Z.eq_dec x ev); auto.
      * intros ->. apply Hx. apply I. auto.
      * intros Hx2. apply Hx. apply I. auto.
    + apply step_schedule; cbn [cal_of scheduled when_ s_heap s_tv].
      * intros x. rewrite I. split; [tauto|]. intros [->|Hx]; auto. destruct (Z.eq_dec x ev); auto.
      * intros x _. apply W.
  - assert (He : ~ in_heap (s_heap s) ev). { intros He. destruct (in_heap_pos _ _ _ V He). lia. }
    destruct (heap_insert_spec (compare_event_heap_nodes tv) (s_heap s) (s_pos s) ev (cmp_events tv)) as (h' & p' & -> & K' & M1 & I & J & M2); auto; try lia.
    { eapply okheap_agree; [|exact K]. intros a b Ha Hb. symmetry. apply A; intros ->; auto. }
    cbn [rbind]. eexists. split; [reflexivity|]. split.
    + split; [auto|]. cbn [s_heap s_pos s_tv]. split; [|split; [auto|lia]]. intros x Hx. rewrite J.
      * apply P. intros Hx2. apply Hx. apply I. auto.
      * intros ->. apply Hx. apply I. auto.
      * intros Hx2. apply Hx. apply I. auto.
    + apply step_schedule; cbn [cal_of scheduled when_ s_heap s_tv]; [apply I|]. intros x _. apply W.
Qed.

Lemma cancel_step : forall n s ev, sched_ok n s -> 0 <= n ->
  exists s', evsched_cancel_locked true s ev = Ok s' /\ sched_ok (n + 1) (evsched_cancel_reset s' ev) /\
    cal_step (cal_of s) (Cancel ev) (cal_of (evsched_cancel_reset s' ev)).
Proof.
  intros n s ev (K & P & T & N1 & N2) Hn. pose proof K as [V O]. unfold evsched_cancel_locked, heap_find.
  set (tv := upd (s_tv s) ev (0, 0)).
  assert (Tv : forall x, tv_ok (tv x)) by (intros x; unfold tv, upd; destruct (x =? ev); auto; unfold tv_ok; cbn; lia).
  assert (FIN : forall h' p', okheap (compare_event_heap_nodes (s_tv s)) h' p' -> (forall y, in_heap h' y <-> in_heap (s_heap s) y /\ y <> ev) ->
    (forall y, ~ in_heap h' y -> p' y = 0) -> h_num h' <= n -> 0 < h_max h' <= 512 + 2 * n ->
    sched_ok (n + 1) (evsched_cancel_reset (mksched h' p' (s_tv s)) ev) /\ cal_step (cal_of s) (Cancel ev) (cal_of (evsched_cancel_reset (mksched h' p' (s_tv s)) ev))).
  { intros h' p' K' I J M1 M2. split.
    - split; [|cbn [evsched_cancel_reset s_heap s_pos s_tv]; fold tv; split; [auto|split; [auto|lia]]].
      cbn [evsched_cancel_reset s_heap s_pos s_tv]. eapply okheap_agree; [|exact K']. intros a b Ha Hb. apply I in Ha, Hb. apply cmp_agree; symmetry; apply upd_neq; tauto.
    - apply step_cancel; cbn [cal_of evsched_cancel_reset scheduled when_ s_heap s_tv].
      + intros x. rewrite I. tauto.
      + intros x Hx. apply I in Hx. rewrite upd_neq; tauto. }
  destruct (s_pos s ev >? 0) eqn:E.
  - assert (He : in_heap (s_heap s) ev).
    { destruct V as (V1 & V2 & V3). destruct (Z_le_gt_dec (s_pos s ev) (h_num (s_heap s))) as [L|L].
      - destruct (V3 (s_pos s ev)) as (x & Ex & Px); [lia|]. destruct (Z.eq_dec x ev) as [->|N]; [exists (s_pos s ev); split; [lia|auto]|].
        exfalso. assert (~ in_heap (s_heap s) ev).
        { intros (i & Hi & Ei). rewrite <- (valid_pos (s_heap s) (s_pos s) i ev) in Ei; [congruence|split; [auto|split; auto]|auto|auto]. }
        apply P in H. lia.
      - exfalso. assert (~ in_heap (s_heap s) ev). { intros (i & Hi & Ei). destruct (V3 i Hi) as (x & Ex & Px). assert (x = ev) by congruence. subst. lia. }
        apply P in H. lia. }
    destruct (in_heap_pos _ _ _ V He) as [H1 H2].
    destruct (heap_delete_spec _ _ _ (s_pos s ev) ev (cmp_events (s_tv s)) K H1 H2) as (h' & p' & -> & K' & M1 & Z0 & I & J & M2).
    cbn [rbind]. eexists. split; [reflexivity|]. apply FIN; auto; try lia. intros y Hy. destruct (Z.eq_dec y ev) as [->|N]; auto.
    rewrite J; [apply P|]; intros Hy2; apply Hy; apply I; auto.
  - assert (He : ~ in_heap (s_heap s) ev). { intros He. destruct (in_heap_pos _ _ _ V He). lia. }
    exists s. split; [auto|]. destruct s as [h p t]. apply (FIN h p); auto; try (cbn [s_heap] in *; lia).
    intros y. split; [intros Hy; split; auto; intros ->; auto|tauto].
Qed.

Lemma turn_step : forall n s now, sched_ok n s -> 0 <= n -> tv_ok now ->
  exists fired s', evsched_turn now s = Ok (fired, s') /\ sched_ok (n + 1) s' /\ cal_step (cal_of s) (Turn (usec now) fired) (cal_of s').
Proof.
  intros n s now (K & P & T & N1 & N2) Hn Hnow. pose proof K as [V O]. pose proof V as (V1 & _). unfold evsched_turn.
  assert (SELF : sched_ok (n + 1) s) by (split; [auto|split; [auto|split; [auto|lia]]]).
  destruct (h_num (s_heap s) =? 0) eqn:E0.
  - exists None, s. split; [auto|]. split; [auto|]. apply step_wait; cbn [cal_of scheduled when_]; try tauto. intros x (i & Hi & _). lia.
  - destruct (c34_head_is_minimal _ _ _ (cmp_events (s_tv s)) K) as (ev & Ee & Hin & Hmin); [lia|]. rewrite Ee. cbn [rbind].
    assert (Hle : forall x, in_heap (s_heap s) x -> usec (s_tv s ev) <= usec (s_tv s x)).
    { intros x Hx. apply Hmin in Hx. unfold compare_event_heap_nodes in Hx. rewrite !timer_lt_spec in Hx by auto.
      destruct (usec (s_tv s x) <? usec (s_tv s ev)) eqn:E1; lia. }
    rewrite timer_lt_spec by auto. destruct (usec now <? usec (s_tv s ev)) eqn:Et; cbn [negb].
    + exists None, s. split; [auto|]. split; [auto|]. apply step_wait; cbn [cal_of scheduled when_]; try tauto. intros x Hx. apply Hle in Hx. lia.
    + destruct (heap_delmin_spec _ _ _ (cmp_events (s_tv s)) K) as (x & h' & p' & Ex & -> & K' & M1 & Z0 & I & J & M2); [lia|]. cbn [rbind].
      assert (x = ev). { destruct (valid_at _ _ 1 V) as (w & Ew & _ & Hw); [lia|]. rewrite Ee in Hw. congruence. } subst x.
      exists (Some ev). eexists. split; [reflexivity|]. split.
      * split; [auto|]. cbn [s_heap s_pos s_tv]. split; [|split; [auto|lia]]. intros y Hy. destruct (Z.eq_dec y ev) as [->|N]; auto.
        rewrite J; [apply P|]; intros Hy2; apply Hy; apply I; auto.
      * apply step_fire; cbn [cal_of scheduled when_ s_heap s_tv]; auto; [split; auto|lia|]. intros y. rewrite I. tauto.
Qed.

Lemma exec_spec : forall cs n s, sched_ok n s -> 0 <= n -> n + zlen cs < 2 ^ 28 -> Forall cmd_ok cs ->
  exists os s', exec cs s = Ok (os, s') /\ sched_ok (n + zlen cs) s' /\ cal_run (cal_of s) os (cal_of s').
Proof.
  induction cs as [|c cs IH]; intros n s K Hn Hl HF; cbn [exec].
  - exists [], s. rewrite zlen_nil, Z.add_0_r. split; [auto|]. split; [auto|constructor].
  - inversion HF as [|? ? H1 H2]; subst. rewrite zlen_cons in *. pose proof (zlen_nonneg cs).
    replace (n + (1 + zlen cs)) with (n + 1 + zlen cs) by lia.
    destruct c as [ev now dt|ev|now].
    + destruct H1 as [H1 H1']. destruct (schedule_step n s ev now dt K) as (s1 & -> & K1 & C1); auto; [lia|]. cbn [rbind].
      destruct (IH (n + 1) s1 K1) as (os & s' & -> & K' & C'); auto; try lia. cbn [rbind]. eexists _, _. split; [reflexivity|]. split; [auto|]. econstructor; eauto.
    + destruct (cancel_step n s ev K Hn) as (s1 & -> & K1 & C1). cbn [rbind].
      destruct (IH (n + 1) _ K1) as (os & s' & -> & K' & C'); auto; try lia. cbn [rbind]. eexists _, _. split; [reflexivity|]. split; [auto|]. econstructor; eauto.
    + destruct (turn_step n s now K Hn H1) as (f & s1 & -> & K1 & C1). cbn [rbind].
      destruct (IH (n + 1) s1 K1) as (os & s' & -> & K' & C'); auto; try lia. cbn [rbind]. eexists _, _. split; [reflexivity|]. split; [auto|]. econstructor; eauto.
Qed.

(** Whatever is scheduled, rescheduled, cancelled and delivered in whatever order: the scheduler
    behaves as the calendar: each turn delivers an earliest due event, or nothing if none is due. *)
Theorem c34_histories : forall cs, Forall cmd_ok cs -> zlen cs < 2 ^ 28 ->
  exists os s', exec cs evsched_init = Ok (os, s') /\
    exists c, cal_run (mkcal (fun _ => False) (fun _ => 0)) os c.
Proof.
  intros cs HF Hl.
  assert (K : sched_ok 0 evsched_init).
  { unfold evsched_init, heap_init, INITIAL_HEAP_SIZE. cbn [Z.eqb]. split; [split|].
    - split; [cbn [s_heap h_num h_max]; lia|]. split; [reflexivity|]. cbn [s_heap h_num]. intros i Hi. lia.
    - intros i Hi. cbn [s_heap h_num] in Hi. lia.
    - cbn [s_pos s_tv s_heap h_num h_max]. repeat split; unfold tv_ok; cbn [snd]; lia. }
  destruct (exec_spec cs 0 evsched_init K) as (os & s' & E & _ & C); auto; try lia.
  exists os, s'. split; [auto|].
  (* the same run from the literally empty calendar *)
  assert (Q : forall c1 c1' os c2, cal_run c1 os c2 -> (forall x, scheduled c1' x <-> scheduled c1 x) ->
    (forall x, scheduled c1 x -> when_ c1' x = when_ c1 x) -> exists c, cal_run c1' os c).
  { clear. intros c1 c1' os c2 H Hs Hw. destruct H as [c|c1 c2 c3 o os H1 H2]; [exists c1'; constructor|].
    exists c3. econstructor; [|exact H2].
    destruct H1 as [c c' ev now dt A B|c c' ev A B|c c' now ev [A0 A0'] A1 A2 A3|c c' now A0 A1 A2].
    - constructor; [intros x; rewrite A, Hs; tauto|]. intros x Hx. rewrite (B x Hx). destruct (x =? ev) eqn:Ex; auto. symmetry. apply Hw. apply A in Hx. destruct Hx; auto. lia.
    - constructor; [intros x; rewrite A, Hs; tauto|]. intros x Hx. rewrite (B x Hx). symmetry. apply Hw. apply A in Hx. tauto.
    - constructor.
      + split; [apply Hs; auto|]. intros x Hx. apply Hs in Hx. rewrite !Hw; auto.
      + rewrite Hw; auto.
      + intros x; rewrite A2, Hs; tauto.
      + intros x Hx. rewrite (A3 x Hx). symmetry. apply Hw. apply A2 in Hx. tauto.
    - constructor; [intros x Hx; apply Hs in Hx; rewrite Hw; auto|intros x; rewrite A1, Hs; tauto|].
      intros x Hx. rewrite (A2 x Hx). symmetry. apply Hw. apply A1; auto. }
  eapply Q; [exact C| |]; cbn [scheduled when_ cal_of evsched_init s_heap heap_init]; [|reflexivity].
  intros x. split; [tauto|]. intros (i & Hi & _). change (1 <= i <= 0) in Hi. lia.
Qed.
Example c34_ex : match exec [DoSchedule 7 (10, 0) 5000; DoSchedule 8 (10, 500000) 1000; DoSchedule 9 (10, 900000) 200;
                         DoTurn (11, 0); DoTurn (11, 100000); DoSchedule 7 (11, 200000) 1; DoCancel 8; DoTurn (12, 0); DoTurn (12, 0)] evsched_init with
  | Ok (os, _) => os | _ => [] end =
  [Schedule 7 10000000 5000; Schedule 8 10500000 1000; Schedule 9 10900000 200; Turn 11000000 None; Turn 11100000 (Some 9);
   Schedule 7 11200000 1; Cancel 8; Turn 12000000 (Some 7); Turn 12000000 None].
Proof. vm_compute. reflexivity. Qed.

(** *** what does not hold *)
(** evsched_cancel clears the event time after it released the lock. If another thread schedules
    the same event in between, the event is delivered before its time: here event 2 is scheduled
    for second 20 and delivered at second 11. *)
Theorem c34_cancel_race_refuted : exists s1 s2 s3 s4,
  evsched_schedule true (0, 0) evsched_init 1 10000 = Ok s1 /\
  evsched_cancel_locked true s1 2 = Ok s2 /\                 (* thread A: cancel event 2, under the lock *)
  evsched_schedule true (0, 0) s2 2 20000 = Ok s3 /\         (* thread B: schedule event 2 for second 20 *)
  s4 = evsched_cancel_reset s3 2 /\                          (* thread A: the rest of cancel *)
  match evsched_turn (11, 0) s4 with
  | Ok (f1, s5) => match evsched_turn (11, 0) s5 with Ok (f2, _) => f1 = Some 1 /\ f2 = Some 2 | _ => False end
  | _ => False
  end.
Proof.
  eexists _, _, _, _. split; [reflexivity|]. split; [reflexivity|]. split; [reflexivity|]. split; [reflexivity|].
  vm_compute. auto.
Qed.
(** If growing the array fails the old array is lost: the next access is undefined, and the
    scheduler ignores the failure. *)
Theorem c34_alloc_failure_refuted : exists h p h' p', 
  heap_insert true (fun a b => a - b) (heap_init 1) (fun _ => 0) 5 = Ok (true, h, p) /\
  heap_insert false (fun a b => a - b) h p 6 = Ok (false, h', p') /\
  heap_delmin (fun a b => a - b) h' p' = UB.
Proof. eexists _, _, _, _. split; [reflexivity|]. split; [reflexivity|]. reflexivity. Qed.

Print Assumptions c34_histories. Print Assumptions c34_replace. Print Assumptions c34_delete.
