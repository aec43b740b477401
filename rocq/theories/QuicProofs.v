(** Lemmas for C71. *)
From Verif Require Import Base QuicModel QuicSpec.

Definition position (bufs : list (list Z)) (first : nat) (unsent : option nat) (off sent : nat) : Prop :=
  match unsent with
  | Some k => exists b, nth_error bufs k = Some b /\ (off < length b)%nat /\ sent = (first + length (concat (firstn k bufs)) + off)%nat
  | None => sent = (first + length (concat bufs))%nat /\ off = 0%nat
  end.

Lemma ack_loop_ok : forall bufs first unsent off size c e sent, (e <= sent)%nat -> position bufs first unsent off sent ->
  let s := ack_loop bufs first unsent off size c e in
  exists gone, bufs = gone ++ s_bufs s /\ s_first s = (first + length (concat gone))%nat /\
    position (s_bufs s) (s_first s) (s_unsent s) (s_off s) sent /\
    s_size s = size - zlen (concat gone) /\ c_size s = c - zlen (concat gone) /\
    (s_first s <= Nat.max first e)%nat /\
    match s_bufs s with b :: _ => (e < s_first s + length b)%nat | [] => True end.
Proof.
  induction bufs as [|b r IH]; intros first unsent off size c e sent He P; cbn [ack_loop].
  - exists []. cbn [s_bufs s_first s_unsent s_off s_size c_size app concat length zlen]. unfold zlen. cbn. repeat split; auto; lia.
  - destruct (length b + first <=? e)%nat eqn:E.
    + apply Nat.leb_le in E. destruct unsent as [[|k]|].
      * destruct P as (b' & N & O & S). cbn in N, S. inversion N. subst b'. lia.
      * destruct (IH (first + length b)%nat (Some k) off (size - zlen b) (c - zlen b) e sent He) as (g & G1 & G2 & G3 & G4 & G5 & G6 & G7).
        { destruct P as (b' & N & O & S). exists b'. cbn in N. split; [exact N|]. split; [exact O|].
          cbn [firstn concat] in S. rewrite app_length in S. lia. }
        exists (b :: g). cbn [app concat]. rewrite app_length. unfold zlen in *. rewrite app_length. split; [rewrite G1 at 1; auto|].
        split; [lia|]. split; [exact G3|]. repeat split; auto; lia.
      * destruct (IH (first + length b)%nat None off (size - zlen b) (c - zlen b) e sent He) as (g & G1 & G2 & G3 & G4 & G5 & G6 & G7).
        { destruct P as (S & O). split; [|exact O]. cbn [concat] in S. rewrite app_length in S. lia. }
        exists (b :: g). cbn [app concat]. rewrite app_length. unfold zlen in *. rewrite app_length. split; [rewrite G1 at 1; auto|].
        split; [lia|]. split; [exact G3|]. repeat split; auto; lia.
    + apply Nat.leb_gt in E. exists []. cbn [s_bufs s_first s_unsent s_off s_size c_size app concat length]. unfold zlen. cbn. repeat split; auto; lia.
Qed.

Record inv (c : Z) (s : stream) (out added : list Z) (acked : nat) (over : bool) : Prop := mkinv {
  i_some : Forall (fun b => b <> []) (s_bufs s);
  i_out : exists rest, added = out ++ rest;
  i_acked : (acked <= length out)%nat;
  i_size : s_size s = zlen (concat (s_bufs s));
  i_csize : c_size s = c + s_size s;
  i_over : over = true -> s_bufs s = [] /\ s_unsent s = None /\ s_off s = 0%nat /\ out = added /\ acked = length added;
  i_live : over = false -> exists pre, added = pre ++ concat (s_bufs s) /\ length pre = s_first s /\ (s_first s <= acked)%nat /\
    match s_bufs s with b :: _ => (acked < s_first s + length b)%nat | [] => True end /\
    position (s_bufs s) (s_first s) (s_unsent s) (s_off s) (length out)
}.

Lemma framed_obuf : forall m, zlen m < 65536 -> obuf m = framed m.
Proof. intros m H. unfold obuf, framed. cbn [app]. f_equal. apply Z.mod_small. unfold zlen in *. split; [apply Z.div_pos; lia|apply Z.div_lt_upper_bound; lia]. Qed.
Lemma nth_split : forall (l : list (list Z)) k b, nth_error l k = Some b -> concat l = concat (firstn k l) ++ b ++ concat (skipn (S k) l).
Proof.
  induction l as [|a l IH]; intros [|k] b H; cbn in H; try discriminate.
  - inversion H. reflexivity.
  - cbn [firstn concat skipn]. rewrite (IH _ _ H), app_assoc. reflexivity.
Qed.
Lemma concat_snoc : forall k (l : list (list Z)) b, nth_error l k = Some b -> concat (firstn (S k) l) = concat (firstn k l) ++ b.
Proof.
  induction k as [|k IH]; intros [|a l] b H; cbn in H; try discriminate.
  - inversion H. cbn. rewrite app_nil_r. reflexivity.
  - cbn [firstn concat] in *. specialize (IH _ _ H). cbn [firstn] in IH. rewrite IH, app_assoc. reflexivity.
Qed.

Lemma add_inv : forall c s out added acked m, inv c s out added acked false -> zlen m < 65536 ->
  (length out < length added \/ acked = length added)%nat -> inv c (add_data s m) out (added ++ framed m) acked false.
Proof.
  intros c s out added acked m I Hm Hc. destruct I as [I1 (rest & I2) I3 I4 I5 I6 I7]. destruct (I7 eq_refl) as (pre & A & L & F & B & P).
  unfold add_data. rewrite (framed_obuf m Hm). split; cbn [s_bufs s_first s_unsent s_off s_size c_size].
  - apply Forall_app. split; [exact I1|]. constructor; [discriminate|constructor].
  - exists (rest ++ framed m). rewrite I2, app_assoc. reflexivity.
  - exact I3.
  - rewrite concat_app, I4. cbn [concat]. rewrite app_nil_r. unfold zlen. rewrite app_length. lia.
  - lia.
  - discriminate.
  - intros _. exists pre. rewrite concat_app. cbn [concat]. rewrite app_nil_r, A, app_assoc. repeat split; auto.
    + destruct (s_bufs s) as [|b r]; cbn [app]; [|exact B]. cbn [length framed]. cbn [concat] in A. rewrite app_nil_r in A. subst pre.
      apply (f_equal (@length Z)) in I2. rewrite app_length in I2. unfold framed. cbn [length]. lia.
    + destruct (s_bufs s) as [|b r] eqn:Eb.
      * cbn [concat] in A. rewrite app_nil_r in A. subst pre. exists (framed m). cbn [app nth_error firstn concat length].
        destruct (s_unsent s) as [k|]; [destruct P as (b & N & _); destruct k; discriminate|]. destruct P as (S & O). cbn in S. rewrite O. split; [auto|]. split; [unfold framed; cbn; lia|lia].
      * destruct (s_unsent s) as [k|].
        -- destruct P as (b' & N & O & S). exists b'. split; [rewrite nth_error_app1; [exact N|apply nth_error_Some; congruence]|]. split; [exact O|].
           rewrite firstn_app. assert (k < length (b :: r))%nat by (apply nth_error_Some; congruence).
           replace (k - length (b :: r))%nat with 0%nat by lia. cbn [firstn]. rewrite app_nil_r. exact S.
        -- destruct P as (S & O). exfalso. apply (f_equal (@length Z)) in A. cbn [concat] in A, S. rewrite !app_length in A. rewrite app_length in S. lia.
Qed.

Lemma firstn_ext : forall (out rest p x y : list Z), out ++ rest = p ++ x ++ y -> length out = length p -> exists rest', out ++ x ++ rest' = out ++ rest /\ out = p.
Proof.
  intros out rest p x y H L. assert (out = p) by (apply (f_equal (firstn (length p))) in H; rewrite firstn_app, <- L, Nat.sub_diag, firstn_all in H; cbn [firstn] in H; rewrite app_nil_r, L, firstn_app, Nat.sub_diag, firstn_all in H; cbn [firstn] in H; rewrite app_nil_r in H; exact H).
  subst p. exists y. split; [congruence|auto].
Qed.

(** What is offered comes next. *)
Lemma offer_ok : forall c s out added acked, inv c s out added acked false ->
  match offer s with
  | None => s_unsent s = None /\ length out = length added
  | Some (d, fin) => exists k b, s_unsent s = Some k /\ nth_error (s_bufs s) k = Some b /\ d = skipn (s_off s) b /\ d <> [] /\
      (exists rest, added = out ++ d ++ rest /\ (fin = true <-> rest = [])) /\ (s_off s < length b)%nat
  end.
Proof.
  intros c s out added acked I. destruct I as [I1 (rest & I2) I3 I4 I5 I6 I7]. destruct (I7 eq_refl) as (pre & A & L & F & B & P).
  unfold offer. destruct (s_unsent s) as [k|].
  - destruct P as (b & N & O & Q). rewrite N. exists k, b. split; [auto|]. split; [exact N|]. split; [auto|].
    split; [intros X; apply (f_equal (@length Z)) in X; rewrite skipn_length in X; cbn in X; lia|]. split; [|exact O].
    assert (Y : out ++ rest = (pre ++ concat (firstn k (s_bufs s)) ++ firstn (s_off s) b) ++ skipn (s_off s) b ++ concat (skipn (S k) (s_bufs s))).
    { rewrite <- I2, A, (nth_split _ _ _ N). rewrite <- !app_assoc. do 2 f_equal. rewrite app_assoc, firstn_skipn. reflexivity. }
    assert (Lo : length out = length (pre ++ concat (firstn k (s_bufs s)) ++ firstn (s_off s) b)).
    { rewrite !app_length, firstn_length. lia. }
    exists (concat (skipn (S k) (s_bufs s))). split.
    + destruct (firstn_ext _ _ _ _ _ Y Lo) as (_ & _ & Eo). rewrite I2, Y, <- Eo. reflexivity.
    + assert (Hk : (k < length (s_bufs s))%nat) by (apply nth_error_Some; congruence). split; intros H.
      * apply Nat.eqb_eq in H. rewrite H, skipn_all. reflexivity.
      * apply Nat.eqb_eq. destruct (skipn (S k) (s_bufs s)) as [|x q] eqn:Es.
        -- apply (f_equal (@length _)) in Es. rewrite skipn_length in Es. cbn in Es. lia.
        -- assert (In x (s_bufs s)) by (rewrite <- (firstn_skipn (S k)), Es; apply in_or_app; right; left; auto).
           rewrite Forall_forall in I1. specialize (I1 _ H0). cbn in H. destruct x; [congruence|discriminate].
  - destruct P as (S & O). split; [auto|]. rewrite A, app_length. lia.
Qed.

Lemma send_ok : forall c s out added acked over n, inv c s out added acked over ->
  exists s' o, send s n = Ok (s', o) /\ inv c s' (out ++ o) added acked over.
Proof.
  intros c s out added acked over n I. destruct over.
  { destruct (i_over _ _ _ _ _ _ I eq_refl) as (_ & U & _). exists s, []. unfold send, offer. rewrite U, app_nil_r. auto. }
  pose proof (offer_ok _ _ _ _ _ I) as H. unfold send. destruct (offer s) as [[d fin]|]; [|exists s, []; rewrite app_nil_r; auto].
  destruct H as (k & b & U & N & D & Dn & (rest & R & _) & O). set (m := Nat.min n (length d)).
  destruct (m =? 0)%nat eqn:Em; [exists s, []; rewrite app_nil_r; auto|]. apply Nat.eqb_neq in Em.
  assert (Ld : length d = (length b - s_off s)%nat) by (rewrite D, skipn_length; auto).
  assert (Lm : (m <= length d)%nat) by (unfold m; lia).
  destruct I as [I1 I2 I3 I4 I5 I6 I7]. destruct (I7 eq_refl) as (pre & A & L & F & B & P). rewrite U in P. destruct P as (b' & N' & O' & Q). rewrite N in N'. inversion N'. subst b'.
  assert (Lo : length (out ++ firstn m d) = (length out + m)%nat) by (rewrite app_length, firstn_length; lia).
  assert (X2 : exists rest0, added = (out ++ firstn m d) ++ rest0).
  { exists (skipn m d ++ rest). rewrite R, <- app_assoc. f_equal. rewrite app_assoc, firstn_skipn. reflexivity. }
  assert (Hk : (k < length (s_bufs s))%nat) by (apply nth_error_Some; congruence).
  unfold mark_sent. rewrite U, N. destruct (length b <? s_off s + m)%nat eqn:E1; [apply Nat.ltb_lt in E1; lia|].
  destruct (s_off s + m =? length b)%nat eqn:E2; cbn [rbind].
  - apply Nat.eqb_eq in E2. eexists. eexists. split; [reflexivity|]. split; cbn [s_bufs s_first s_unsent s_off s_size c_size]; auto; [lia|discriminate|].
    intros _. exists pre. repeat split; auto. destruct (S k <? length (s_bufs s))%nat eqn:E3.
    + apply Nat.ltb_lt in E3. destruct (nth_error (s_bufs s) (S k)) as [b2|] eqn:N2; [|apply nth_error_None in N2; lia].
      exists b2. split; [exact N2|]. split.
      * apply nth_error_In in N2. rewrite Forall_forall in I1. specialize (I1 _ N2). destruct b2; [congruence|cbn; lia].
      * rewrite Lo, (concat_snoc _ _ _ N), app_length. lia.
    + apply Nat.ltb_ge in E3. split; [|auto]. rewrite Lo. rewrite (nth_split _ _ _ N), !app_length. rewrite skipn_all2 by lia. cbn. lia.
  - apply Nat.eqb_neq in E2. eexists. eexists. split; [reflexivity|]. split; cbn [s_bufs s_first s_unsent s_off s_size c_size]; auto; [lia|discriminate|].
    intros _. exists pre. repeat split; auto. exists b. split; [exact N|]. split; [apply Nat.ltb_ge in E1; lia|lia].
Qed.

Lemma ack_inv : forall c s out added acked over e keep, inv c s out added acked over -> (e <= length out)%nat ->
  inv c (ack_data s e keep) out added (Nat.max acked e) (over || (negb keep && (length added <=? Nat.max acked e)%nat)).
Proof.
  intros c s out added acked over e keep I He. destruct over.
  { destruct (i_over _ _ _ _ _ _ I eq_refl) as (Bn & U & Of & Eo & Ea). destruct I as [I1 I2 I3 I4 I5 I6 I7]. cbn [orb].
    assert (Z0 : s_size s = 0) by (rewrite I4, Bn; reflexivity).
    assert (Nat.max acked e = length added) by (subst out; lia).
    unfold ack_data. rewrite Bn. cbn [ack_loop s_bufs c_size]. destruct keep; split; cbn [reset s_bufs s_first s_unsent s_off s_size c_size]; auto; try lia; try discriminate; try (subst out; lia); intros; auto. }
  destruct I as [I1 (rest & I2) I3 I4 I5 I6 I7]. destruct (I7 eq_refl) as (pre & A & L & F & B & P). cbn [orb].
  destruct (ack_loop_ok _ _ _ _ (s_size s) (c_size s) e _ He P) as (g & G1 & G2 & G3 & G4 & G5 & G6 & G7).
  unfold ack_data. set (s' := ack_loop (s_bufs s) (s_first s) (s_unsent s) (s_off s) (s_size s) (c_size s) e) in *.
  assert (LA : length added = (s_first s' + length (concat (s_bufs s')))%nat) by (rewrite A, G1, concat_app, !app_length; lia).
  assert (Lx : (length out <= length added)%nat) by (rewrite I2, app_length; lia).
  assert (Sz : s_size s' = zlen (concat (s_bufs s'))) by (rewrite G4, I4, G1, concat_app; unfold zlen; rewrite app_length; lia).
  assert (Fo : Forall (fun b => b <> []) (s_bufs s')) by (rewrite G1 in I1; apply Forall_app in I1; tauto).
  assert (Liv : inv c s' out added (Nat.max acked e) false).
  { split; [auto|exists rest; auto|lia|auto|lia|discriminate|]. intros _. exists (pre ++ concat g). split; [rewrite A, G1, concat_app, app_assoc; reflexivity|].
    split; [rewrite app_length; lia|]. split; [lia|]. split; [|exact G3].
    destruct (s_bufs s') as [|b r] eqn:Eb; [auto|]. destruct g as [|b0 g]; [|].
    - cbn [app] in G1. rewrite G1 in B. cbn [concat length] in G2. lia.
    - cbn [app] in G1. rewrite G1 in B. cbn [concat] in G2. rewrite app_length in G2. lia. }
  destruct (s_bufs s') as [|b r] eqn:Eb.
  - assert (M : (length added <= Nat.max acked e)%nat).
    { cbn in LA. lia. }
    destruct keep; cbn [negb andb]; [exact Liv|]. apply Nat.leb_le in M. rewrite M. apply Nat.leb_le in M.
    assert (rest = []) by (apply length_zero_iff_nil; apply (f_equal (@length Z)) in I2; rewrite app_length in I2; lia).
    subst rest. rewrite app_nil_r in I2. split; cbn [reset s_bufs s_first s_unsent s_off s_size c_size concat]; auto; try lia; try discriminate.
    + exists []. rewrite app_nil_r. auto.
    + cbn in Sz. lia.
    + intros _. repeat split; auto. subst added. lia.
  - assert (M : (length added <=? Nat.max acked e)%nat = false).
    { apply Nat.leb_gt. cbn [concat] in LA. rewrite app_length in LA. destruct (i_live _ _ _ _ _ _ Liv eq_refl) as (? & _ & _ & _ & Y & _). rewrite Eb in Y. lia. }
    rewrite M, andb_false_r. exact Liv.
Qed.

Lemma history_inv : forall c s out added acked over, history c s out added acked over -> inv c s out added acked over.
Proof.
  intros c s out added acked over H. induction H as [|s out added acked m H I Hm Hc|s out added acked over n s' o H I E|s out added acked over e keep H I He].
  - split; cbn; auto; try discriminate; try (unfold zlen; cbn; lia). { exists []. auto. } intros _. exists []. repeat split; auto.
  - apply add_inv; auto.
  - destruct (send_ok _ _ _ _ _ _ n I) as (s2 & o2 & E2 & I2). rewrite E in E2. inversion E2. subst. exact I2.
  - apply ack_inv; auto.
Qed.
