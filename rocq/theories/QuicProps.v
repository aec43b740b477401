(** C71: a stream of QUIC sends every message once and in order, and keeps what was not acknowledged. *)
From Verif Require Import Base QuicModel QuicSpec QuicProofs.

(** The octets sent are the first ones of the framed messages, in their order. *)
Theorem c71_in_order : forall c s out added acked over, history c s out added acked over -> exists rest, added = out ++ rest.
Proof. intros c s out added acked over H. apply (i_out _ _ _ _ _ _ (history_inv _ _ _ _ _ _ H)). Qed.

(** While something is unsent, the transport is given the next octets, at least one; FIN is set exactly if they are the last
    of those added. When nothing is unsent, nothing is given. *)
Theorem c71_progress : forall c s out added acked over, history c s out added acked over ->
  match offer s with
  | Some (d, fin) => d <> [] /\ exists rest, added = out ++ d ++ rest /\ (fin = true <-> rest = [])
  | None => out = added
  end.
Proof.
  intros c s out added acked over H. apply history_inv in H. destruct over.
  - destruct (i_over _ _ _ _ _ _ H eq_refl) as (_ & U & _ & E & _). unfold offer. rewrite U. exact E.
  - pose proof (offer_ok _ _ _ _ _ H) as O. destruct (offer s) as [[d fin]|].
    + destruct O as (k & b & _ & _ & _ & Dn & R & _). auto.
    + destruct O as (_ & L). destruct (i_out _ _ _ _ _ _ H) as (rest & E). rewrite E, app_length in L.
      destruct rest; [rewrite app_nil_r in E; auto|cbn in L; lia].
Qed.

(** Sending meets no undefined behaviour, whatever number of octets the transport takes. *)
Theorem c71_defined : forall c s out added acked over n, history c s out added acked over -> exists s' o, send s n = Ok (s', o).
Proof. intros c s out added acked over n H. destruct (send_ok _ _ _ _ _ _ n (history_inv _ _ _ _ _ _ H)) as (s' & o & E & _). eauto. Qed.

(** All that was added and not acknowledged is in memory at its place: the transport sends it again from there. *)
Theorem c71_kept : forall c s out added acked over, history c s out added acked over -> over = false ->
  (s_first s <= acked)%nat /\ concat (s_bufs s) = skipn (s_first s) added.
Proof.
  intros c s out added acked over H ->. destruct (i_live _ _ _ _ _ _ (history_inv _ _ _ _ _ _ H) eq_refl) as (pre & A & L & F & _).
  split; [exact F|]. rewrite A, <- L, skipn_app, Nat.sub_diag, skipn_all. reflexivity.
Qed.

(** A message that was acknowledged as a whole is not in memory: less than the first message in memory is acknowledged. When
    all was acknowledged, nothing is in memory. *)
Theorem c71_freed : forall c s out added acked over, history c s out added acked over ->
  match s_bufs s with b :: _ => (acked < s_first s + length b)%nat | [] => acked = length added end.
Proof.
  intros c s out added acked over H. apply history_inv in H. destruct over.
  - destruct (i_over _ _ _ _ _ _ H eq_refl) as (B & _ & _ & _ & E). rewrite B. exact E.
  - destruct (i_live _ _ _ _ _ _ H eq_refl) as (pre & A & L & F & B & _). destruct (s_bufs s) as [|b r]; [|exact B].
    cbn [concat] in A. rewrite app_nil_r in A. subst pre. destruct (i_out _ _ _ _ _ _ H) as (rest & E). pose proof (i_acked _ _ _ _ _ _ H).
    apply (f_equal (@length Z)) in E. rewrite app_length in E. lia.
Qed.

(** The counters that limit the memory are exact: [c] is what the other streams have. *)
Theorem c71_counters : forall c s out added acked over, history c s out added acked over ->
  s_size s = zlen (concat (s_bufs s)) /\ c_size s = c + zlen (concat (s_bufs s)).
Proof. intros c s out added acked over H. apply history_inv in H. pose proof (i_size _ _ _ _ _ _ H). pose proof (i_csize _ _ _ _ _ _ H). lia. Qed.

(** Two messages, of which the transport takes 4, then up to 9, octets; the first is acknowledged *)
Example c71_example : exists s, history 7 s [0; 3; 1; 2; 3; 0; 1; 9] [0; 3; 1; 2; 3; 0; 1; 9] 6 false /\
  s_bufs s = [[0; 1; 9]] /\ s_first s = 5%nat /\ s_size s = 3 /\ c_size s = 10 /\ offer s = None.
Proof.
  exists (ack_data (mks [[0; 3; 1; 2; 3]; [0; 1; 9]] 0 None 0 8 15) 6 false). split; [|vm_compute; auto 10].
  apply (h_ack 7 _ _ [0; 3; 1; 2; 3; 0; 1; 9] 0 false 6 false); [|cbn; lia].
  apply (h_send 7 (mks [[0; 3; 1; 2; 3]; [0; 1; 9]] 0 (Some 1%nat) 0 8 15) [0; 3; 1; 2; 3] _ 0 false 9); [|reflexivity].
  apply (h_send 7 (mks [[0; 3; 1; 2; 3]; [0; 1; 9]] 0 (Some 0%nat) 4 8 15) [0; 3; 1; 2] _ 0 false 9); [|reflexivity].
  apply (h_add 7 (mks [[0; 3; 1; 2; 3]] 0 (Some 0%nat) 4 5 12) [0; 3; 1; 2] [0; 3; 1; 2; 3] 0 [9]); [|reflexivity|left; cbn; lia].
  apply (h_send 7 (mks [[0; 3; 1; 2; 3]] 0 (Some 0%nat) 0 5 12) [] _ 0 false 4); [|reflexivity].
  apply (h_add 7 (reset 7) [] [] 0 [1; 2; 3]); [constructor|reflexivity|right; reflexivity].
Qed.

(** The condition on adding is needed: a message added when all was sent and not all was acknowledged is never given to the
    transport, whatever is acknowledged later. *)
Theorem c71_stall_refuted : exists s1 s2, send (add_data (reset 0) [5]) 3 = Ok (s1, [0; 1; 5]) /\ s2 = add_data s1 [6] /\
  s_bufs s2 = [[0; 1; 5]; [0; 1; 6]] /\ offer s2 = None /\ forall e keep, (e <= 3)%nat -> offer (ack_data s2 e keep) = None.
Proof.
  exists (mks [[0; 1; 5]] 0 None 0 3 3), (mks [[0; 1; 5]; [0; 1; 6]] 0 None 0 6 6). repeat split.
  intros e keep H. destruct e as [|[|[|[|e]]]]; [reflexivity..|lia].
Qed.

Print Assumptions c71_in_order.
Print Assumptions c71_progress.
Print Assumptions c71_defined.
Print Assumptions c71_kept.
Print Assumptions c71_freed.
Print Assumptions c71_counters.
Print Assumptions c71_stall_refuted.
