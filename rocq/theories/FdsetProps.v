(** C67: a set of file descriptors keeps what was registered for each of them, through every history *)
From Verif Require Import Base FdsetModel FdsetSpec FdsetProofs FdsetProofs2 FdsetProofs3 FdsetProofs4.
From Coq Require Import Permutation.

(** After any history the set holds exactly the descriptors that were added and not removed, each at one index and with
    what was set for it last. The kernel watches the same descriptors, and the arrays are large enough. *)
Theorem c67_history n l s w : history n l s w ->
  holds s w /\ (forall fd, kget (ker s) fd <> None <-> w fd <> None) /\ (count s <= size s)%nat.
Proof.
  intros H. pose proof (history_inv _ _ _ _ H) as I. split; [exact (inv_holds _ _ _ I)|]. split; [|exact (inv_size _ _ _ I)].
  intros fd. split.
  - intros HK. destruct (kget (ker s) fd) as [v|] eqn:E; [|congruence]. exact (inv_kern _ _ _ I _ _ E).
  - intros HW. destruct (w fd) as [e|] eqn:E; [|congruence]. destruct (inv_world _ _ _ I _ _ E) as (i & x & Hi & Ex).
    destruct (inv_slots _ _ _ I _ _ Hi) as (ev & _ & HK & _). rewrite <- Ex, HK. discriminate.
Qed.

(** Every operation allowed after a history ends, and has the effect it should have: a round delivers each event that is
    due, with the contexts of its own descriptor, and a sweep asks once about each descriptor that has expired and
    removes those chosen. *)
Theorem c67_step n l s w o : history n l s w -> op_ok s w o ->
  exists s' v w', step o s = Ok (s', v) /\ effect s w o w' v /\ history n (l ++ [o]) s' w'.
Proof.
  intros H HO. destruct (step_inv _ _ _ (history_inv _ _ _ _ H) HO) as (s' & v & w' & E & F & _).
  exists s', v, w'. split; [exact E|]. split; [exact F|]. eapply hist_snoc; eassumption.
Qed.

(** An operation closes the descriptors it removes from the set, each once, and no other. *)
Theorem c67_closed n l s w o s' v : history n l s w -> op_ok s w o -> step o s = Ok (s', v) ->
  Permutation (closed s') (closed s ++ closes s o v) /\ NoDup (closes s o v) /\
  (forall fd, In fd (closes s o v) -> w fd <> None) /\
  (forall w', effect s w o w' v -> forall fd, In fd (closes s o v) -> w' fd = None).
Proof.
  intros H HO HS. pose proof (history_inv _ _ _ _ H) as I.
  destruct (step_inv _ _ _ I HO) as (s1 & v1 & w1 & E & F & I1 & PC & _). rewrite HS in E. injection E as <- <-.
  split; [exact PC|].
  assert (forall fd, In fd (closes s o v) -> w1 fd = None) as GONE.
  { intros fd Hin. destruct o as [? ? ? ? ?|idx|? ? ?|? ?|now cb|now off ready h]; destruct v as [r|l1|l1]; simpl in *; try tauto.
    - destruct (fd_at s idx) as [f|]; [|destruct Hin]. destruct Hin as [<-|[]]. destruct F as (_ & F). rewrite F. unfold upd. rewrite Z.eqb_refl. reflexivity.
    - destruct F as (_ & HI & F). apply filter_In in Hin. destruct Hin as (Hin & Hcb). rewrite F.
      apply HI in Hin. destruct Hin as (e & -> & ->). rewrite Hcb. reflexivity.
    - destruct F as (_ & F). rewrite F. unfold round_effect, drop. pose proof (marks_in (map d_fd (filter (fun d => snd (h d)) l1)) fd) as MI.
      unfold marks in MI. apply MI in Hin. rewrite Hin. reflexivity. }
  split; [|split].
  - destruct o as [? ? ? ? ?|idx|? ? ?|? ?|now cb|now off ready h]; destruct v as [r|l1|l1]; simpl in *; try tauto; try constructor.
    + destruct (fd_at s idx); [|constructor]. constructor; [intros []|constructor].
    + destruct F as (ND & _). apply NoDup_filter. exact ND.
    + destruct F as (((chosen & EM & _) & _) & _). destruct HO as (_ & ND & _). apply filter_map_nodup.
      assert (map d_fd l1 = map fst (filter chosen ready)) as -> by (rewrite <- EM, map_map; reflexivity).
      apply filter_map_nodup. exact ND.
  - intros fd Hin. destruct o as [? ? ? ? ?|idx|? ? ?|? ?|now cb|now off ready h]; destruct v as [r|l1|l1]; simpl in *; try tauto.
    + unfold fd_at in *. destruct (nth_error (slots s) idx) as [x|] eqn:Hx; simpl in *; [|destruct Hin]. destruct Hin as [<-|[]].
      destruct (inv_slots _ _ _ I _ _ Hx) as (ev & _ & _ & -> & _). discriminate.
    + destruct F as (_ & HI & _). apply filter_In in Hin. destruct Hin as (Hin & _). apply HI in Hin. destruct Hin as (e & -> & _). discriminate.
    + destruct F as ((_ & FA) & _). apply in_map_iff in Hin. destruct Hin as (d & <- & Hd). apply filter_In in Hd.
      rewrite Forall_forall in FA. destruct (FA d (proj1 Hd)) as (_ & e & -> & _). discriminate.
  - intros w' F' fd Hin. rewrite (effect_unique _ _ _ _ _ _ F' F). exact (GONE fd Hin).
Qed.

(** Indices below which nothing is closed stay those of the same descriptors: the sockets the server listens on, added
    first, remain below the limit that separates them from the connections. *)
Theorem c67_indices n l s w o s' v k : history n l s w -> op_ok s w o -> step o s = Ok (s', v) -> (k <= count s)%nat ->
  (forall j fd, (j < k)%nat -> fd_at s j = Some fd -> ~ In fd (closes s o v)) ->
  forall j, (j < k)%nat -> fd_at s' j = fd_at s j.
Proof.
  intros H HO HS. destruct (step_inv _ _ _ (history_inv _ _ _ _ H) HO) as (s1 & v1 & w1 & E & _ & _ & _ & HK).
  rewrite HS in E. injection E as <- <-. apply HK.
Qed.

(** A case: one listening socket, a connection accepted in a round and closed in another one, one that expires *)
Lemma absent s w fd : holds s w -> existsb (fun x => s_fd x =? fd) (slots s) = false -> w fd = None.
Proof.
  intros (H & _) HE. destruct (w fd) as [e|] eqn:We; [|reflexivity]. exfalso. apply H in We. destruct We as (i & Hg).
  unfold get in Hg. destruct (nth_error (slots s) i) as [x|] eqn:Hx; [|discriminate].
  destruct (kget (ker s) (s_fd x)) as [[? ?]|]; [|discriminate]. injection Hg as Ef _.
  assert (existsb (fun x => s_fd x =? fd) (slots s) = true); [|congruence]. apply existsb_exists. exists x.
  split; [eapply nth_error_In; exact Hx|lia].
Qed.
Definition c67_h : handler := fun d =>
  if d_fd d =? 3 then ([AAdd 12 1 70 60 true true], false) else ([ACtx2 5; AWatch 60], d_fd d =? 10).
Definition c67_ops : list op :=
  [OAdd 3 1 70 true true; OAdd 10 1 70 true true; OWatch 1 60 100; OAdd 11 1 71 true true; OWatch 2 10 100;
   ORound 101 0 [(10, 1); (3, 1); (11, 1)] c67_h; OWatch 2 10 102; OSweep 130 (fun _ => true)].
Example c67_example : exists s w, history 1 c67_ops s w /\ map s_fd (slots s) = [3; 12] /\ closed s = [10; 11] /\
  (exists e, w 12 = Some e /\ e_deadline e = Some 161).
Proof.
  pose proof (hist_nil 1) as H0.
  assert (forall l s w fd ev ctx, history 1 l s w -> 0 <= fd -> ev = 1 -> existsb (fun x => s_fd x =? fd) (slots s) = false ->
            op_ok s w (OAdd fd ev ctx true true)) as ADD.
  { intros l s w fd ev ctx H Hf -> He. split; [|reflexivity]. split; [exact Hf|].
    split; [exact (absent _ _ _ (proj1 (c67_history _ _ _ _ H)) He)|discriminate]. }
  destruct (c67_step _ _ _ _ _ H0 (ADD _ _ _ 3 1 70 H0 ltac:(lia) eq_refl eq_refl)) as (s1 & v1 & w1 & E1 & _ & H1).
  vm_compute in E1. injection E1 as <- <-.
  destruct (c67_step _ _ _ _ _ H1 (ADD _ _ _ 10 1 70 H1 ltac:(lia) eq_refl eq_refl)) as (s2 & v2 & w2 & E2 & _ & H2).
  vm_compute in E2. injection E2 as <- <-.
  destruct (c67_step _ _ _ _ (OWatch 1 60 100) H2 ltac:(simpl; lia)) as (s3 & v3 & w3 & E3 & _ & H3).
  vm_compute in E3. injection E3 as <- <-.
  destruct (c67_step _ _ _ _ _ H3 (ADD _ _ _ 11 1 71 H3 ltac:(lia) eq_refl eq_refl)) as (s4 & v4 & w4 & E4 & _ & H4).
  vm_compute in E4. injection E4 as <- <-.
  destruct (c67_step _ _ _ _ (OWatch 2 10 100) H4 ltac:(simpl; lia)) as (s5 & v5 & w5 & E5 & _ & H5).
  vm_compute in E5. injection E5 as <- <-.
  destruct (c67_step _ _ _ _ (ORound 101 0 [(10, 1); (3, 1); (11, 1)] c67_h) H5) as (s6 & v6 & w6 & E6 & _ & H6).
  { split; [lia|]. split.
    { simpl. repeat (apply NoDup_cons; [simpl; intuition discriminate|]). apply NoDup_nil. }
    intros l ((chosen & EM & _) & _).
    assert (w5 12 = None) as W12 by (exact (absent _ _ 12 (proj1 (c67_history _ _ _ _ H5)) eq_refl)).
    assert (forall d, Forall (act_ok w5) (fst (c67_h d))) as AO.
    { intros d. unfold c67_h. destruct (d_fd d =? 3); simpl; repeat (apply Forall_cons; [simpl; auto|]); try apply Forall_nil.
      split; [|auto]. split; [lia|]. split; [exact W12|discriminate]. }
    split; [|apply Forall_forall; intros d _; apply AO].
    assert (NoDup (map d_fd l)) as ND.
    { assert (map d_fd l = map fst (filter chosen [(10, 1); (3, 1); (11, 1)])) as -> by (rewrite <- EM, map_map; reflexivity).
      apply filter_map_nodup. simpl. repeat (apply NoDup_cons; [simpl; intuition discriminate|]). apply NoDup_nil. }
    clear EM. induction l as [|d l IH]; [constructor|]. simpl in ND. inversion ND as [|? ? NI ND' EE]; subst. simpl.
    unfold adds at 1, c67_h. destruct (d_fd d =? 3) eqn:E; simpl; [|exact (IH ND')]. constructor; [|exact (IH ND')].
    intros Hin. apply in_flat_map in Hin. destruct Hin as (d' & Hd' & Hin). unfold adds, c67_h in Hin.
    destruct (d_fd d' =? 3) eqn:E'; simpl in Hin; [|tauto]. apply NI. apply in_map_iff. exists d'. split; [lia|exact Hd']. }
  vm_compute in E6. injection E6 as <- <-.
  destruct (c67_step _ _ _ _ (OWatch 2 10 102) H6 ltac:(simpl; lia)) as (s7 & v7 & w7 & E7 & _ & H7).
  vm_compute in E7. injection E7 as <- <-.
  destruct (c67_step _ _ _ _ (OSweep 130 (fun _ => true)) H7 Logic.I) as (s8 & v8 & w8 & E8 & _ & H8).
  vm_compute in E8. injection E8 as <- <-.
  eexists. exists w8. split; [exact H8|]. split; [reflexivity|]. split; [reflexivity|].
  pose proof (proj1 (proj1 (c67_history _ _ _ _ H8))) as HW.
  exists (mkentry 1 70 0 (Some 161)). split; [|reflexivity]. apply HW. exists 1%nat. reflexivity.
Qed.
(** The state after a list of operations *)
Definition run (l : list op) (s : fdset) : res fdset :=
  fold_left (fun r o => let* s := r in let* (s, _) := step o s in Ok s) l (Ok s).
(** The hypotheses of the theorems are met along this history. *)
Example c67_hypotheses : exists s w o s' v, history 1 (removelast c67_ops) s w /\ op_ok s w o /\ step o s = Ok (s', v) /\
  closes s o v = [11] /\ (2 <= count s)%nat /\ forall j fd, (j < 2)%nat -> fd_at s j = Some fd -> ~ In fd (closes s o v).
Proof.
  destruct c67_example as (s8 & w8 & H8 & _).
  inversion H8 as [E|l s w o s' v w' H HO HS HE EL]; subst.
  assert (l = removelast c67_ops /\ o = OSweep 130 (fun _ => true)) as (-> & ->).
  { change c67_ops with (removelast c67_ops ++ [OSweep 130 (fun _ => true)]) in EL. apply app_inj_tail in EL. exact EL. }
  assert (exists s0, run (removelast c67_ops) (fdset_init 1) = Ok s0 /\ s0 = s) as (s0 & E0 & ES).
  { clear -H. revert H. generalize (removelast c67_ops). intros l H. exists s. split; [|reflexivity]. unfold run.
    induction H as [|l s w o s' v w' H IH HO HS HE]; [reflexivity|]. rewrite fold_left_app, IH. simpl. rewrite HS. reflexivity. }
  vm_compute in E0. injection E0 as E0. rewrite <- E0 in ES. subst s.
  eexists. exists w, (OSweep 130 (fun _ => true)), s8, v. split; [exact H|]. split; [exact HO|]. split; [exact HS|].
  vm_compute in HS. injection HS as _ <-. split; [reflexivity|]. split; [unfold count; simpl; lia|].
  intros [|[|j]] fd Lj Hj; [| |lia]; vm_compute in Hj; injection Hj as <-; simpl; intuition discriminate.
Qed.

(** Without room in the kernel it is not so: fdset_add fails but keeps the new entry (fdset.c:107-121). *)
Theorem c67_room_refuted : exists n l s w fd ev ctx s' r, history n l s w /\ new_ok w fd ev /\
  step (OAdd fd ev ctx true false) s = Ok (s', SCode r) /\ r < 0 /\ count s' = S (count s) /\ fd_at s' (count s) = Some fd.
Proof.
  exists 4%nat, [], (fdset_init 4), nothing, 12, 1, 70. eexists. exists KNOT_ENOMEM.
  split; [constructor|]. split; [split; [lia|split; [reflexivity|discriminate]]|]. split; [reflexivity|].
  split; [unfold KNOT_ENOMEM; lia|]. split; reflexivity.
Qed.
(** The server closes a connection that could not be added, and the next one gets the same number. When the stale entry
    is moved, the events of the new connection are taken for those of the stale entry: its second context is not the
    one that was set. *)
Definition c67_stale : list op :=
  [OAdd 3 1 70 true true; OAdd 10 1 70 true true; OAdd 11 1 70 true true; OAdd 12 1 70 true false; OAdd 12 1 70 true true;
   OCtx2 4 77; OWatch 4 60 100; ORemove 1; ORemove 2].
Definition c67_served : list op := c67_stale ++ [ORound 110 0 [(12, 1)] (fun _ => ([AWatch 60], false))].
Definition c67_mix := Eval vm_compute in
  let* s := run c67_stale (fdset_init 8) in
  let* (s', l) := round 110 0 [(12, 1)] (fun _ => ([AWatch 60], false)) s in Ok (s, s', l).
Theorem c67_mixed_refuted : exists s s' d, run c67_stale (fdset_init 8) = Ok s /\
  fd_at s 1 = Some 12 /\ option_map s_ctx2 (nth_error (slots s) 1) = Some 77 /\
  round 110 0 [(12, 1)] (fun _ => ([AWatch 60], false)) s = Ok (s', [d]) /\ d_fd d = 12 /\ d_ctx2 d = 0.
Proof.
  exists (match c67_mix with Ok (s, _, _) => s | _ => fdset_init 0 end),
         (match c67_mix with Ok (_, s, _) => s | _ => fdset_init 0 end),
         (match c67_mix with Ok (_, _, d :: _) => d | _ => mkdel 0 0 0 1 0 end).
  repeat match goal with |- _ /\ _ => split end; vm_compute; reflexivity.
Qed.
(** When the connection expires then, the sweep never ends: the stale entry cannot be removed and is tried for ever. *)
Lemma stale_loop fuel now cb sz k cl calls : forall x y, kget k (s_fd y) = None -> late now y = true -> cb (s_fd y) = true ->
  sweep_loop fuel now cb (mkset [x; y] sz k cl) 1 calls = OOF.
Proof.
  intros x y HK HL HC. revert cl calls. induction fuel as [|fuel IH]; intros cl calls; [reflexivity|]. simpl.
  unfold late in HL. rewrite HL, HC. unfold fdset_remove. simpl. unfold k_del. rewrite HK. simpl. apply IH.
Qed.
Theorem c67_sweep_refuted : exists s, run c67_served (fdset_init 8) = Ok s /\
  forall fuel, sweep_loop fuel 200 (fun _ => true) s 0 [] = OOF.
Proof.
  remember (run c67_served (fdset_init 8)) as r eqn:E. vm_compute in E. subst r. eexists. split; [reflexivity|].
  intros [|[|fuel]]; [reflexivity|reflexivity|].
  simpl. match goal with |- context[sweep_loop fuel _ _ ?S _ _] => let S' := eval vm_compute in S in change S with S' end.
  apply stale_loop; reflexivity.
Qed.

Print Assumptions c67_history.
Print Assumptions c67_step.
Print Assumptions c67_closed.
Print Assumptions c67_indices.
Print Assumptions c67_room_refuted.
Print Assumptions c67_mixed_refuted.
Print Assumptions c67_sweep_refuted.
