(** C41: the control channel delivers units unchanged. *)
From Verif Require Import Base WireModel WireProofs WireProps CtlModel CtlProofs.

(** * Specification *)

(** A unit is its type and its twelve optional strings. Strings are given without the
    terminating zero. [bs] is the size of the buffers of both sides (256 KiB by default). *)
Definition cunit : Type := (Z * data)%type.
Definition sendable (bs : Z) (u : cunit) : Prop :=
  (fst u = CTL_END \/ fst u = CTL_DATA \/ fst u = CTL_EXTRA \/ fst u = CTL_BLOCK) /\
  zlen (snd u) = 12 /\ (forall v, In (Some v) (snd u) -> zlen v <= 65535 /\ zlen v <= bs).

(** Units of types END and BLOCK carry no strings. *)
Definition carries (t : Z) : bool := (t =? CTL_DATA) || (t =? CTL_EXTRA).
Definition seen (u : cunit) : cunit := (fst u, if carries (fst u) then snd u else repeat None 12).

(** send units one by one, until a call fails *)
Fixpoint send_all (c : ctl) (us : list cunit) : res (Z * ctl) :=
  match us with
  | [] => Ok (KNOT_EOK, c)
  | u :: us =>
    let* (ret, c) := ctl_send c (fst u) (Some (snd u)) in
    if negb (ret =? KNOT_EOK) then Ok (ret, c) else send_all c us
  end.

(** receive up to [n] units, until a call fails; the units and how it ended *)
Fixpoint receive_all (n : nat) (al : Z -> bool) (bs : Z) (c : ctl) : list cunit * res (Z * ctl) :=
  match n with
  | O => ([], Ok (KNOT_EOK, c))
  | S n =>
    match ctl_receive al bs c with
    | Ok (ret, t, d, c) =>
      if ret =? KNOT_EOK then let (l, r) := receive_all n al bs c in ((t, d) :: l, r)
      else ([], Ok (ret, c))
    | Err e => ([], Err e)
    | UB => ([], UB)
    | OOF => ([], OOF)
    end
  end.

(** A new sender, whose system calls end as [cs] and [ps] say; a new receiver of the bytes. *)
Definition sender (bs : Z) (cs : list call) (ps : list poll) : ctl := mkctl (mksock cs ps []) (out_init bs).
Definition receiver (cs : list call) (ps : list poll) (pipe : list Z) : ctl := mkctl (mksock cs ps pipe) in_init.

(** Behaviour of the system without failures: each call moves at least one byte, is interrupted,
    or has to wait, poll() always ends with readiness, and there are enough calls for
    [n] bytes. *)
Definition working (cs : list call) (ps : list poll) (n : Z) : Prop :=
  (forall k, In (Move k) cs -> 0 < k) /\ ~ In Fail cs /\ (forall p, In p ps -> p = Ready) /\
  n <= zlen (filter is_move cs) /\ zlen (filter is_move cs) + zlen (filter is_again cs) <= zlen ps.

(** the last unit makes the sender write out everything *)
Definition finished (us : list cunit) : Prop := us = [] \/ exists l u, us = l ++ [u] /\ carries (fst u) = false.

(** * Proofs *)
Lemma sendable_ok : forall bs u, sendable bs u -> unit_ok bs (fst u) (snd u).
Proof.
  intros bs [t d] (H1 & H2 & H3). cbn [fst snd] in *. unfold CTL_END, CTL_DATA, CTL_EXTRA, CTL_BLOCK in H1. split; [lia|]. split; [exact H2|]. apply Forall_forall. intros [v|] H; [exact (H3 v H)|exact I].
Qed.
Definition encoded (us : list cunit) : list Z := concat (map (fun u => encode (fst u) (snd u)) us).

Lemma working_ok : forall cs ps pipe n, working cs ps n -> able_out (mksock cs ps pipe) n.
Proof.
  assert (C : forall A (p : A -> bool) l, zlen (filter p l) = cnt p l). { induction l as [|x l IH]; cbn [filter cnt]; [reflexivity|]. destruct (p x); rewrite ?zlen_cons; lia. }
  intros cs ps pipe n (H1 & H2 & H3 & H4 & H5). rewrite !C in *. split; [|split; [|split; auto]].
  - cbn [s_calls]. apply Forall_forall. intros [k| | |] H; cbn [okcall]; auto.
  - cbn [s_polls]. apply Forall_forall. intros p H. symmetry. auto.
Qed.
Lemma working_in : forall cs ps pipe, working cs ps (zlen pipe) -> able_in (mksock cs ps pipe).
Proof. intros cs ps pipe H. destruct (working_ok cs ps pipe _ H) as (A & B & C & D). cbn [s_calls s_polls] in *. split; [auto|]. split; [auto|]. cbn [s_calls s_polls s_pipe]. pose proof (cnt_nonneg _ is_move cs). split; lia. Qed.

Lemma send_all_ok : forall us bs c S k, 2 <= bs < 2 ^ 63 -> Forall (sendable bs) us -> sending bs c S -> 0 <= k ->
  gives (send_all c us) (able c (zlen (encoded us) + k))
    (fun c' => sending bs c' (S ++ encoded us) /\ (us = [] -> c' = c) /\ (finished us -> us <> [] -> buffered c' = 0)).
Proof.
  induction us as [|u us IH]; intros bs c S k HB HU HS HK; cbn [send_all].
  - cbn [gives]. change (KNOT_EOK =? KNOT_EOK) with true. cbv iota. split; [|split; [auto|congruence]]. change (encoded []) with (@nil Z). rewrite app_nil_r. auto.
  - inversion HU as [|? ? U1 U2]; subst x l. unfold encoded. cbn [map concat]. fold (encoded us). pose proof (zlen_nonneg (encoded us)).
    replace (zlen (encode (fst u) (snd u) ++ encoded us) + k) with (zlen (encode (fst u) (snd u)) + (zlen (encoded us) + k)) by (rewrite zlen_app; lia).
    eapply gives_bind with (e := fun _ c => c); [apply (ctl_send_ok bs c S (fst u) (snd u) (zlen (encoded us) + k)); auto; [apply sendable_ok; auto|lia]|].
    intros c1 (Q1 & Q2 & Q3). eapply gives_weaken; [apply (IH bs c1 (S ++ encode (fst u) (snd u)) k); auto|auto|].
    intros c2 (P1 & P0 & P2). rewrite <- app_assoc in P1. split; [auto|]. split; [discriminate|]. intros F _. destruct us as [|u2 us].
    + destruct F as [F|(l & x & E & F)]; [discriminate F|]. destruct l as [|y l]; cbn [app] in E; [injection E as <-|injection E as _ E; destruct l; discriminate E].
      rewrite P0 by auto. apply Q2. exact F.
    + apply P2; [|discriminate]. destruct F as [F|(l & x & E & F)]; [discriminate F|]. destruct l as [|y l]; cbn [app] in E; [discriminate E|]. injection E as <- E. right. exists l, x. auto.
Qed.

Lemma encoded_next : forall bs us, Forall (sendable bs) us -> next_unit (encoded us).
Proof. intros bs [|u us] H; [exact I|]. inversion H; subst. destruct (sendable_ok _ _ H2) as (A & _). unfold encoded. cbn [map concat]. unfold encode. cbn [app next_unit]. auto. Qed.

Lemma receive_nothing : forall al bs c, 2 <= bs < 2 ^ 63 -> receiving bs c [] ->
  gives4 (ctl_receive al bs c) False (fun _ _ _ => False).
Proof.
  intros al bs c HB HR. unfold ctl_receive. set (fuel := (length (w_buf (c_wire c)) + length (s_pipe (c_sock c)))%nat). cbn [receive_loop].
  eapply gives4_bind with (e := fun c => c); [apply (code_ok bs c []); [lia|auto]|tauto|]. intros x a (S' & E & _). discriminate E.
Qed.

Lemma seen_eq : forall u, (fst u, if is_data_type (fst u) then snd u else no_data) = seen u.
Proof. intros [t d]. reflexivity. Qed.

Definition ended (r : res (Z * ctl)) (G : Prop) : Prop :=
  match r with Ok (ret, _) => ret = KNOT_EOK \/ ~ G | Err e => e = KNOT_EAGAIN /\ ~ G | UB | OOF => False end.

Lemma receive_all_ok : forall us n al bs c S R, 2 <= bs < 2 ^ 63 -> Forall (sendable bs) us -> receiving bs c S -> S ++ R = encoded us ->
  exists m, (m <= n)%nat /\ (m <= length us)%nat /\ fst (receive_all n al bs c) = map seen (firstn m us) /\
    ended (snd (receive_all n al bs c)) (rin c /\ R = [] /\ (forall n, al n = true) /\ finished us /\ (n <= length us)%nat) /\
    (m = n \/ match snd (receive_all n al bs c) with Ok (ret, _) => ret <> KNOT_EOK | _ => True end).
Proof.
  induction us as [|u us IH]; intros n al bs c S R HB HU HR HE.
  - destruct n as [|n]; cbn [receive_all]. { exists O. cbn [fst snd ended]. split; [lia|]. split; [lia|]. split; [auto|]. split; auto. }
    exists O. change (encoded []) with (@nil Z) in HE. apply app_eq_nil in HE. destruct HE as [-> ->]. pose proof (receive_nothing al bs c HB HR) as G.
    destruct (ctl_receive al bs c) as [[[[ret t] d] c']|e| |]; cbn [gives4 fst snd] in *; try tauto.
    + destruct (ret =? KNOT_EOK) eqn:E; [tauto|]. cbn [fst snd ended length]. split; [lia|]. split; [lia|]. split; [auto|]. split; [right; intros (_ & _ & _ & _ & L); lia|right; lia].
    + cbn [ended length]. split; [lia|]. split; [lia|]. split; [auto|]. split; [|auto]. split; [tauto|intros (_ & _ & _ & _ & L); lia].
  - destruct n as [|n]; cbn [receive_all]. { exists O. cbn [fst snd ended]. split; [lia|]. split; [lia|]. split; [auto|]. split; auto. }
    inversion HU as [|? ? U1 U2]; subst x l. unfold encoded in HE. cbn [map concat] in HE. fold (encoded us) in HE.
    pose proof (ctl_receive_ok al bs c S R (encoded us) (fst u) (snd u) HB (sendable_ok _ _ U1) (encoded_next _ _ U2) HR HE) as G.
    assert (FIN : finished (u :: us) -> is_data_type (fst u) = true -> encoded us <> []).
    { intros [F|(l & x & E & F)] T; [discriminate F|]. destruct l as [|y l]; cbn [app] in E. - injection E as <- ->. unfold carries in F. unfold is_data_type in T. congruence. - injection E as <- ->. unfold encoded. destruct l; discriminate. }
    destruct (ctl_receive al bs c) as [[[[ret t] d] c']|e| |]; cbn [gives4 fst snd] in *; try tauto.
    + destruct (ret =? KNOT_EOK) eqn:E.
      * destruct G as (-> & -> & S' & G1 & G2 & G3). destruct (IH n al bs c' S' R HB U2 G1 G2) as (m & M1 & M2 & M3 & M4 & M5).
        destruct (receive_all n al bs c') as [l r]. cbn [fst snd] in *. exists (Datatypes.S m). cbn [length firstn map]. split; [lia|]. split; [lia|]. split; [rewrite M3, <- seen_eq; auto|]. split; [|destruct M5; [left; lia|auto]].
        assert (IM : (rin c /\ R = [] /\ (forall n, al n = true) /\ finished (u :: us) /\ (Datatypes.S n <= Datatypes.S (length us))%nat) -> (rin c' /\ R = [] /\ (forall n, al n = true) /\ finished us /\ (n <= length us)%nat)).
        { intros (A1 & A2 & A3 & A4 & A5). split; [auto|]. split; [auto|]. split; [auto|]. split; [|lia]. destruct us as [|u2 us]; [left; auto|]. right. destruct A4 as [A4|(l2 & x & E2 & F)]; [discriminate A4|]. destruct l2 as [|y l2]; cbn [app] in E2; [discriminate E2|]. injection E2 as <- E2. exists l2, x. auto. }
        unfold ended in *. destruct r as [[rr rc]|e| |]; tauto.
      * exists O. cbn [fst snd length firstn map ended]. split; [lia|]. split; [lia|]. split; [auto|]. split; [right; tauto|right; lia].
    + exists O. cbn [length firstn map ended]. split; [lia|]. split; [lia|]. split; [auto|]. split; [|auto]. split; [tauto|]. destruct G as [_ G]. tauto.
Qed.

Lemma sender_start : forall bs cs ps, 2 <= bs < 2 ^ 63 -> sending bs (sender bs cs ps) [].
Proof.
  intros bs cs ps H. exists [], (zeros bs). unfold sender, out_init, wire_init. cbn [c_wire c_sock s_pipe w_ro app].
  split; [split; [auto|]; split; [auto|]; split; [auto|]; cbn [app]; rewrite zlen_zeros by lia; lia|]. split; [auto|]. rewrite zlen_nil, zlen_zeros by lia. split; auto.
Qed.
Lemma receiver_start : forall bs cs ps pipe, 2 <= bs -> receiving bs (receiver cs ps pipe) pipe.
Proof.
  intros bs cs ps pipe H. exists [], []. unfold receiver, in_init, wire_init. cbn [c_wire c_sock s_pipe app]. split; [split; [auto|]; split; [auto|]; split; [auto|]; cbn [app]; rewrite zlen_nil; lia|]. rewrite !zlen_nil. split; [lia|auto].
Qed.

(** * C41 *)

(** Whatever units are sent, however the bytes are cut on both sides by the system, and whatever
    goes wrong on the side of the receiver: what is received until its first error is the
    beginning of what was sent. Calls end with success or an error, or wait for more. *)
Theorem c41_roundtrip : forall bs us cs ps c al cs' ps' n, 2 <= bs < 2 ^ 63 -> Forall (sendable bs) us ->
  send_all (sender bs cs ps) us = Ok (KNOT_EOK, c) ->
  let (got, r) := receive_all n al bs (receiver cs' ps' (s_pipe (c_sock c))) in
  exists m, got = map seen (firstn m us) /\ (m <= length us)%nat /\ (m <= n)%nat /\
  (m = n \/ r = Err KNOT_EAGAIN \/ exists ret c', r = Ok (ret, c') /\ ret <> KNOT_EOK) /\
  r <> UB /\ r <> OOF.
Proof.
  intros bs us cs ps c al cs' ps' n HB HU HS. pose proof (send_all_ok us bs (sender bs cs ps) [] 0 HB HU (sender_start bs cs ps HB) ltac:(lia)) as G. rewrite HS in G. cbn [gives] in G. change (KNOT_EOK =? KNOT_EOK) with true in G. cbv iota in G.
  destruct G as ((pre & post & HA & HR & HL & HE) & _). cbn [app] in HE.
  destruct (receive_all_ok us n al bs (receiver cs' ps' (s_pipe (c_sock c))) _ pre HB HU (receiver_start bs cs' ps' _ ltac:(lia)) HE) as (m & M1 & M2 & M3 & M4 & M5).
  destruct (receive_all n al bs _) as [got r]. cbn [fst snd] in *. exists m. split; [auto|]. split; [auto|]. split; [auto|]. unfold ended in M4. destruct r as [[ret c']|e| |]; try tauto.
  - split; [|split; discriminate]. destruct M5 as [M5|M5]; [auto|]. right. right. eauto.
  - destruct M4 as [-> _]. split; [auto|split; discriminate].
Qed.

(** If nothing goes wrong, everything is received: all units, each one once, in order. *)
Theorem c41_complete : forall bs us cs ps c al cs' ps', 2 <= bs < 2 ^ 63 -> Forall (sendable bs) us -> finished us ->
  send_all (sender bs cs ps) us = Ok (KNOT_EOK, c) ->
  working cs' ps' (zlen (s_pipe (c_sock c))) -> (forall n, al n = true) ->
  exists c', receive_all (length us) al bs (receiver cs' ps' (s_pipe (c_sock c))) = (map seen us, Ok (KNOT_EOK, c')).
Proof.
  intros bs us cs ps c al cs' ps' HB HU HF HS HW HM. pose proof (send_all_ok us bs (sender bs cs ps) [] 0 HB HU (sender_start bs cs ps HB) ltac:(lia)) as G. rewrite HS in G. cbn [gives] in G. change (KNOT_EOK =? KNOT_EOK) with true in G. cbv iota in G.
  destruct G as ((pre & post & HA & HR & HL & HE) & G0 & G2). cbn [app] in HE.
  assert (HP : pre = []). { destruct HA as (_ & A2 & _). destruct us as [|u us]. - rewrite G0 in A2 by auto. change (0 = zlen pre) in A2. destruct pre; auto. rewrite zlen_cons in A2. pose proof (zlen_nonneg pre). lia. - unfold buffered in G2. rewrite G2 in A2 by (auto; discriminate). destruct pre; auto. rewrite zlen_cons in A2. pose proof (zlen_nonneg pre). lia. }
  destruct (receive_all_ok us (length us) al bs (receiver cs' ps' (s_pipe (c_sock c))) _ pre HB HU (receiver_start bs cs' ps' _ ltac:(lia)) HE) as (m & M1 & M2 & M3 & M4 & M5).
  assert (GG : rin (receiver cs' ps' (s_pipe (c_sock c))) /\ pre = [] /\ (forall n, al n = true) /\ finished us /\ (length us <= length us)%nat).
  { split; [apply working_in; auto|]. auto. }
  destruct (receive_all (length us) al bs _) as [got r]. cbn [fst snd] in *. unfold ended in M4. destruct r as [[ret c']|e| |]; try tauto.
  destruct M4 as [-> |M4]; [|tauto]. destruct M5 as [-> |M5]; [|congruence]. rewrite firstn_all in M3. exists c'. congruence.
Qed.

(** Sending succeeds if nothing goes wrong on that side. *)
Theorem c41_send : forall bs us cs ps, 2 <= bs < 2 ^ 63 -> Forall (sendable bs) us -> working cs ps (zlen (encoded us)) ->
  exists c, send_all (sender bs cs ps) us = Ok (KNOT_EOK, c).
Proof.
  intros bs us cs ps HB HU HW. pose proof (send_all_ok us bs (sender bs cs ps) [] 0 HB HU (sender_start bs cs ps HB) ltac:(lia)) as G.
  assert (A : able (sender bs cs ps) (zlen (encoded us) + 0)). { unfold able, buffered, sender. cbn [c_sock c_wire]. change (w_pos (out_init bs)) with 0. rewrite Z.add_0_r, Z.add_0_l. apply working_ok. auto. }
  destruct (send_all (sender bs cs ps) us) as [[ret c]|e| |]; cbn [gives] in G; try tauto. destruct (ret =? KNOT_EOK) eqn:E; [|tauto]. exists c. f_equal. f_equal. lia.
Qed.

(** * Examples and limits *)
Definition ctl_us : list cunit :=
  [(CTL_DATA, [Some [99; 111]; None; None; None; None; None; Some [120; 46]; None; None; None; Some []; None]);
   (CTL_EXTRA, [None; None; None; None; None; None; None; None; None; None; Some [97; 98; 99; 100; 101; 102]; Some [1]]);
   (CTL_BLOCK, [Some [7]; None; None; None; None; None; None; None; None; None; None; None]);
   (CTL_END, repeat None 12)].
(** buffers of 8 bytes, calls that move 1 to 5 bytes, interruptions and waiting *)
Definition ctl_cs : list call := flat_map (fun _ => [Move 3; Intr; Move 1; Again; Move 5; Move 2]) (seq 0 12).
Definition ctl_ps : list poll := flat_map (fun _ => [Ready; Ready; Ready; Ready; Ready]) (seq 0 12).

Example c41_ex_hyp : Forall (sendable 8) ctl_us /\ finished ctl_us /\ working ctl_cs ctl_ps 30 /\ zlen (encoded ctl_us) = 30.
Proof.
  split; [|split; [|split]].
  - unfold ctl_us. repeat (apply Forall_cons; [split; [cbn; auto|split; [reflexivity|]]; cbn [snd repeat In]; intros v H; repeat (destruct H as [H|H]; [first [discriminate H|injection H as <-; vm_compute; split; discriminate]|]); contradiction|]). constructor.
  - right. exists (firstn 3 ctl_us), (CTL_END, repeat None 12). split; reflexivity.
  - split; [|split; [|split; [|split; [vm_compute; discriminate|vm_compute; discriminate]]]].
    + intros k H. cbn in H. repeat (destruct H as [H|H]; [first [discriminate H|injection H as <-; lia]|]). contradiction.
    + intros H. cbn in H. repeat (destruct H as [H|H]; [discriminate H|]). contradiction.
    + intros p H. cbn in H. repeat (destruct H as [H|H]; [auto|]). contradiction.
  - reflexivity.
Qed.
Example c41_ex : exists c c', send_all (sender 8 ctl_cs ctl_ps) ctl_us = Ok (KNOT_EOK, c) /\
  receive_all 4 (fun _ => true) 8 (receiver ctl_cs ctl_ps (s_pipe (c_sock c))) = (map seen ctl_us, Ok (KNOT_EOK, c')).
Proof.
  assert (E : exists c, send_all (sender 8 ctl_cs ctl_ps) ctl_us = Ok (KNOT_EOK, c)) by (eexists; vm_compute; reflexivity).
  destruct E as [c E]. exists c. eexists. split; [exact E|]. vm_compute in E. injection E as <-. vm_compute. reflexivity.
Qed.
(** a receiver that is given up in the middle has a beginning of the units *)
Example c41_ex_cut : exists c, send_all (sender 8 ctl_cs ctl_ps) ctl_us = Ok (KNOT_EOK, c) /\
  let (got, r) := receive_all 4 (fun _ => true) 8 (receiver [Move 30; Move 30; Move 30; Again] [Late] (s_pipe (c_sock c))) in
  got = map seen (firstn 1 ctl_us) /\ exists c', r = Ok (KNOT_ETIMEOUT, c').
Proof.
  assert (E : exists c, send_all (sender 8 ctl_cs ctl_ps) ctl_us = Ok (KNOT_EOK, c)) by (eexists; vm_compute; reflexivity).
  destruct E as [c E]. exists c. split; [exact E|]. vm_compute in E. injection E as <-. vm_compute. split; [reflexivity|]. eexists. reflexivity.
Qed.

(** A string that is too long makes the call fail, but a part of the unit stays in the buffer:
    the following unit, although sent with success, does not arrive. *)
Theorem c41_too_long_refuted : forall v, zlen v > 65535 -> exists c1 c2,
  ctl_send (sender 100 [Move 100] []) CTL_DATA (Some (Some v :: repeat None 11)) = Ok (KNOT_ERANGE, c1) /\
  ctl_send c1 CTL_END None = Ok (KNOT_EOK, c2) /\
  fst (receive_all 2 (fun _ => true) 100 (receiver [Move 100; Move 100] [] (s_pipe (c_sock c2)))) = [].
Proof.
  intros v H. assert (E : (zlen v >? 65535) = true) by lia. unfold ctl_send. cbn [send_values]. unfold send_item. rewrite E. eexists. eexists. split; [|split].
  - clear H E. vm_compute. reflexivity.
  - vm_compute. reflexivity.
  - vm_compute. reflexivity.
Qed.
Example c41_ex_long : exists v : list Z, zlen v > 65535.
Proof. exists (zeros 65536). rewrite zlen_zeros; lia. Qed.

(** A call of receive that timed out in the middle of a unit cannot be repeated: the unit is lost. *)
Theorem c41_repeat_refuted : exists us c t d c1 c2, us = [(CTL_DATA, Some [97; 98] :: repeat None 11); (CTL_END, repeat None 12)] /\
  send_all (sender 100 [Move 100] []) us = Ok (KNOT_EOK, c) /\
  ctl_receive (fun _ => true) 100 (receiver [Move 3; Again; Move 100] [Late] (s_pipe (c_sock c))) = Ok (KNOT_ETIMEOUT, t, d, c1) /\
  ctl_receive (fun _ => true) 100 c1 = Ok (KNOT_EOK, CTL_END, repeat None 12, c2).
Proof.
  do 6 eexists. split; [reflexivity|]. split; [vm_compute; reflexivity|]. split; [vm_compute; reflexivity|]. vm_compute. reflexivity.
Qed.

Print Assumptions c41_roundtrip.
Print Assumptions c41_complete.
Print Assumptions c41_send.
Print Assumptions c41_too_long_refuted.
Print Assumptions c41_repeat_refuted.
