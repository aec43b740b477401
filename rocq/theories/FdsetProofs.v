(** The invariant of a set of descriptors, and what adding, removing and sweeping do to it *)
From Verif Require Import Base FdsetModel FdsetSpec.
From Coq Require Import Permutation.

Lemma kget_app k k' fd : kget (k ++ k') fd = match kget k fd with Some v => Some v | None => kget k' fd end.
Proof. induction k as [|[f v] k IH]; simpl; [reflexivity|]. destruct (f =? fd); auto. Qed.
Lemma kget_filter k fd x : kget (filter (fun p => negb (fst p =? fd)) k) x = if x =? fd then None else kget k x.
Proof.
  induction k as [|[f v] k IH]; simpl; [destruct (x =? fd); reflexivity|].
  destruct (f =? fd) eqn:E; simpl.
  - rewrite IH. destruct (x =? fd) eqn:E2; [reflexivity|]. assert (f =? x = false) as -> by lia. reflexivity.
  - rewrite IH. destruct (f =? x) eqn:E2; [|reflexivity]. assert (x =? fd = false) as -> by lia. reflexivity.
Qed.
Lemma kget_map k fd i ev x : kget k fd <> None ->
  kget (map (fun p => if fst p =? fd then (fd, (i, ev)) else p) k) x = if x =? fd then Some (i, ev) else kget k x.
Proof.
  induction k as [|[f v] k IH]; simpl; intros H; [congruence|].
  destruct (f =? fd) eqn:E; simpl.
  - destruct (fd =? x) eqn:E2.
    + assert (x =? fd = true) as -> by lia. reflexivity.
    + assert (x =? fd = false) as Hx by lia. rewrite Hx. assert (f =? x = false) as -> by lia.
      clear H IH. induction k as [|[g u] k IH]; simpl; [reflexivity|].
      destruct (g =? fd) eqn:E3; simpl.
      * rewrite E2. rewrite IH. assert (g =? x = false) as -> by lia. reflexivity.
      * rewrite IH. reflexivity.
  - rewrite IH by assumption. destruct (f =? x) eqn:E2; [|reflexivity].
    assert (x =? fd = false) as -> by lia. reflexivity.
Qed.
Lemma put_length {A} i (v : A) l : length (put i v l) = length l.
Proof. revert i. induction l as [|x l IH]; intros [|i]; simpl; auto. Qed.
Lemma nth_put {A} i (v : A) l j : (i < length l)%nat ->
  nth_error (put i v l) j = if (j =? i)%nat then Some v else nth_error l j.
Proof.
  revert i j. induction l as [|x l IH]; intros [|i] [|j] H; simpl in *; try lia; try reflexivity.
  apply IH. lia.
Qed.
Lemma nth_firstn {A} (l : list A) n j : (j < n)%nat -> nth_error (firstn n l) j = nth_error l j.
Proof. revert n j. induction l as [|x l IH]; intros [|n] [|j] H; simpl; try lia; try reflexivity. apply IH; lia. Qed.
Lemma nth_some_lt {A} (l : list A) i x : nth_error l i = Some x -> (i < length l)%nat.
Proof. intros H. apply nth_error_Some. congruence. Qed.

Definition dl (t : Z) : option Z := if t >? 0 then Some t else None.
Definition slot_ok (m : Z -> bool) (k : kern) (w : world) (i : nat) (x : slot) : Prop :=
  exists ev, ev <> FDSET_REMOVE_FLAG /\ kget k (s_fd x) = Some (i, ev) /\
    w (s_fd x) = Some (mkentry ev (s_ctx x) (s_ctx2 x) (dl (s_timeout x))) /\
    s_events x = (if m (s_fd x) then FDSET_REMOVE_FLAG else ev).
Record inv (m : Z -> bool) (s : fdset) (w : world) : Prop := mkinv {
  inv_size : (count s <= size s)%nat;
  inv_slots : forall i x, nth_error (slots s) i = Some x -> slot_ok m (ker s) w i x;
  inv_world : forall fd e, w fd = Some e -> exists i x, nth_error (slots s) i = Some x /\ s_fd x = fd;
  inv_kern : forall fd v, kget (ker s) fd = Some v -> w fd <> None }.

Lemma inv_inj m s w i j x y : inv m s w -> nth_error (slots s) i = Some x -> nth_error (slots s) j = Some y ->
  s_fd x = s_fd y -> i = j.
Proof.
  intros I Hx Hy E. destruct (inv_slots _ _ _ I _ _ Hx) as (e1 & _ & K1 & _).
  destruct (inv_slots _ _ _ I _ _ Hy) as (e2 & _ & K2 & _). rewrite E in K1. congruence.
Qed.
Lemma inv_ext m s w w' : inv m s w -> (forall x, w' x = w x) -> inv m s w'.
Proof.
  intros [S1 S2 S3 S4] E. split.
  - assumption.
  - intros i x Hi. destruct (S2 _ _ Hi) as (ev & A & B & C & D). exists ev. rewrite E. auto.
  - intros fd e He. rewrite E in He. eauto.
  - intros fd v Hv. rewrite E. eauto.
Qed.
Lemma inv_mark m m' s w : inv m s w -> (forall i x, nth_error (slots s) i = Some x -> m' (s_fd x) = m (s_fd x)) -> inv m' s w.
Proof.
  intros [S1 S2 S3 S4] E. split; [assumption| |assumption|assumption].
  intros i x Hi. destruct (S2 _ _ Hi) as (ev & A & B & C & D). exists ev. rewrite (E _ _ Hi). auto.
Qed.
Lemma inv_init n : inv (fun _ => false) (fdset_init n) nothing.
Proof.
  split; simpl.
  - unfold count. simpl. lia.
  - intros [|i] x; discriminate.
  - discriminate.
  - discriminate.
Qed.

Lemma inv_holds m s w : inv m s w -> holds s w.
Proof.
  intros I. split; [|split].
  - intros fd e. split.
    + intros He. destruct (inv_world _ _ _ I _ _ He) as (i & x & Hi & Ef). exists i. unfold get. rewrite Hi.
      destruct (inv_slots _ _ _ I _ _ Hi) as (ev & _ & -> & Hw & _). subst fd. rewrite He in Hw. injection Hw as ->. reflexivity.
    + intros (i & Hg). unfold get in Hg. destruct (nth_error (slots s) i) as [x|] eqn:Hi; [|discriminate].
      destruct (inv_slots _ _ _ I _ _ Hi) as (ev & _ & HK & Hw & _). rewrite HK in Hg. injection Hg as <- <-. exact Hw.
  - intros i Hi. unfold get. destruct (nth_error (slots s) i) as [x|] eqn:E.
    + destruct (inv_slots _ _ _ I _ _ E) as (ev & _ & -> & _). eauto.
    + apply nth_error_None in E. unfold count in Hi. lia.
  - intros i j fd e e' Hi Hj. unfold get in *.
    destruct (nth_error (slots s) i) as [x|] eqn:Ex; [|discriminate].
    destruct (nth_error (slots s) j) as [y|] eqn:Ey; [|discriminate].
    destruct (kget (ker s) (s_fd x)) as [[? ?]|]; [|discriminate].
    destruct (kget (ker s) (s_fd y)) as [[? ?]|]; [|discriminate].
    apply (inv_inj _ _ _ _ _ _ _ I Ex Ey). congruence.
Qed.

Lemma inv_kget_none m s w fd : inv m s w -> w fd = None -> kget (ker s) fd = None.
Proof. intros I H. destruct (kget (ker s) fd) eqn:E; [|reflexivity]. exfalso. exact (inv_kern _ _ _ I _ _ E H). Qed.

Lemma inv_add m s w fd ev ctx mem : inv m s w -> new_ok w fd ev -> m fd = false ->
  (exists r, fdset_add s fd ev ctx mem true = (r, s) /\ r < 0 /\ mem = false) \/
  (exists s', fdset_add s fd ev ctx mem true = (Z.of_nat (count s), s') /\
     slots s' = slots s ++ [mkslot fd ev ctx 0 0] /\ closed s' = closed s /\
     inv m s' (upd w fd (Some (mkentry ev ctx 0 None)))).
Proof.
  intros I (H0 & H1 & H2) Hm. unfold fdset_add. assert (fd <? 0 = false) as -> by lia.
  destruct ((count s =? size s)%nat && negb mem) eqn:E.
  - left. exists KNOT_ENOMEM. split; [reflexivity|]. split; [unfold KNOT_ENOMEM; lia|]. destruct mem; [|reflexivity].
    rewrite Bool.andb_false_r in E. discriminate.
  - right. unfold k_add. rewrite (inv_kget_none _ _ _ _ I H1). simpl.
    eexists. split; [reflexivity|]. split; [reflexivity|]. split; [reflexivity|].
    pose proof (inv_size _ _ _ I) as HS. split; simpl.
    + unfold count in *. simpl. rewrite app_length. simpl.
      destruct (length (slots s) =? size s)%nat eqn:E2; unfold FDSET_RESIZE_STEP; [lia|].
      apply Nat.eqb_neq in E2. lia.
    + intros i x Hi. destruct (Nat.lt_ge_cases i (count s)) as [L|L].
      * rewrite nth_error_app1 in Hi by exact L. destruct (inv_slots _ _ _ I _ _ Hi) as (e & A & B & C & D).
        exists e. split; [assumption|]. rewrite kget_app, B. split; [reflexivity|]. unfold upd.
        destruct (s_fd x =? fd) eqn:E3; [|split; assumption]. assert (s_fd x = fd) by lia. congruence.
      * rewrite nth_error_app2 in Hi by exact L. fold (count s) in Hi.
        destruct (i - count s)%nat eqn:E3; simpl in Hi; [|destruct n; discriminate]. injection Hi as <-.
        exists ev. simpl. split; [assumption|]. rewrite kget_app, (inv_kget_none _ _ _ _ I H1). simpl.
        rewrite Z.eqb_refl. split; [f_equal; f_equal; lia|]. unfold upd. rewrite Z.eqb_refl, Hm. split; reflexivity.
    + intros f e. unfold upd. destruct (f =? fd) eqn:E3; intros He.
      * exists (count s). eexists. split; [rewrite nth_error_app2 by (unfold count; lia); unfold count; rewrite Nat.sub_diag; reflexivity|].
        simpl. lia.
      * destruct (inv_world _ _ _ I _ _ He) as (i & x & Hi & Ef). exists i, x. split; [|assumption].
        rewrite nth_error_app1; [assumption|]. eapply nth_some_lt; eassumption.
    + intros f v. rewrite kget_app. unfold upd. destruct (f =? fd) eqn:E3; [congruence|].
      destruct (kget (ker s) f) eqn:E4; intros Hv.
      * exact (inv_kern _ _ _ I _ _ E4).
      * simpl in Hv. assert (fd =? f = false) as E5 by lia. rewrite E5 in Hv. discriminate.
Qed.

Lemma inv_remove m s w i x : inv m s w -> nth_error (slots s) i = Some x ->
  (forall y, nth_error (slots s) (count s - 1) = Some y -> i = (count s - 1)%nat \/ m (s_fd y) = false) ->
  exists s', fdset_remove s i = (KNOT_EOK, s') /\ inv m s' (upd w (s_fd x) None) /\
    closed s' = closed s ++ [s_fd x] /\ count s' = (count s - 1)%nat /\
    (forall j, (j < count s - 1)%nat ->
       nth_error (slots s') j = if (j =? i)%nat then nth_error (slots s) (count s - 1) else nth_error (slots s) j).
Proof.
  intros I Hx HL. pose proof (inv_slots _ _ _ I _ _ Hx) as (ev & Hev & Kx & Wx & Sx).
  pose proof (nth_some_lt _ _ _ Hx) as Li. fold (count s) in Li.
  unfold fdset_remove. rewrite Hx. unfold k_del. rewrite Kx. simpl.
  destruct (nth_error (slots s) (count s - 1)) as [y|] eqn:Hy.
  2:{ apply nth_error_None in Hy. unfold count in *. lia. }
  pose proof (inv_slots _ _ _ I _ _ Hy) as (ey & Hey & Ky & Wy & Sy).
  assert (length (firstn (count s - 1) (slots s)) = (count s - 1)%nat) as Lf.
  { rewrite firstn_length. unfold count. lia. }
  destruct (i <? count s - 1)%nat eqn:E.
  - apply Nat.ltb_lt in E.
    assert (s_fd y <> s_fd x) as Nf. { intros Ef. pose proof (inv_inj _ _ _ _ _ _ _ I Hy Hx Ef). lia. }
    assert (s_fd y =? s_fd x = false) as Nf' by lia.
    unfold k_mod. rewrite kget_filter, Nf', Ky.
    eexists. split; [reflexivity|].
    assert (forall j, (j < count s - 1)%nat -> nth_error (put i y (firstn (count s - 1) (slots s))) j =
              if (j =? i)%nat then Some y else nth_error (slots s) j) as HN.
    { intros j Hj. rewrite nth_put by (rewrite Lf; exact E). destruct (j =? i)%nat; [reflexivity|]. apply nth_firstn; exact Hj. }
    assert (forall f, kget (map (fun p => if fst p =? s_fd y then (s_fd y, (i, s_events y)) else p)
               (filter (fun p => negb (fst p =? s_fd x)) (ker s))) f =
             if f =? s_fd y then Some (i, s_events y) else if f =? s_fd x then None else kget (ker s) f) as HK.
    { intros f. rewrite kget_map by (rewrite kget_filter, Nf', Ky; discriminate). rewrite kget_filter. reflexivity. }
    assert (m (s_fd y) = false) as My. { destruct (HL y eq_refl); [lia|assumption]. }
    rewrite My in Sy.
    split; [|split; [reflexivity|split; [unfold count; simpl; rewrite put_length; exact Lf|exact HN]]].
    pose proof (inv_size _ _ _ I) as HS.
    split; simpl.
    + unfold count at 1. simpl. rewrite put_length, Lf. lia.
    + intros j z Hj. assert (j < count s - 1)%nat as Lj.
      { apply nth_some_lt in Hj. rewrite put_length, Lf in Hj. exact Hj. }
      rewrite HN in Hj by exact Lj. destruct (j =? i)%nat eqn:Ej.
      * apply Nat.eqb_eq in Ej. injection Hj as <-. exists ey. split; [assumption|].
        rewrite HK, Z.eqb_refl. split; [congruence|]. unfold upd. rewrite Nf', My. split; [exact Wy|exact Sy].
      * apply Nat.eqb_neq in Ej.
        destruct (inv_slots _ _ _ I _ _ Hj) as (ez & A & B & C & D). exists ez. split; [assumption|].
        assert (s_fd z =? s_fd y = false) as E1.
        { apply Z.eqb_neq. intros Ef. pose proof (inv_inj _ _ _ _ _ _ _ I Hj Hy Ef). lia. }
        assert (s_fd z =? s_fd x = false) as E2.
        { apply Z.eqb_neq. intros Ef. pose proof (inv_inj _ _ _ _ _ _ _ I Hj Hx Ef). lia. }
        rewrite HK, E1, E2. unfold upd. rewrite E2. auto.
    + intros f e. unfold upd. destruct (f =? s_fd x) eqn:Ef; [discriminate|]. intros He.
      destruct (inv_world _ _ _ I _ _ He) as (j & z & Hj & Ez).
      pose proof (nth_some_lt _ _ _ Hj) as Lj. fold (count s) in Lj.
      destruct (Nat.eq_dec j (count s - 1)) as [->|Nj].
      * exists i, y. split; [|congruence]. rewrite HN by exact E. rewrite Nat.eqb_refl. reflexivity.
      * exists j, z. split; [|assumption]. rewrite HN by lia.
        destruct (j =? i)%nat eqn:Ej; [|assumption]. apply Nat.eqb_eq in Ej. subst j. rewrite Hx in Hj. injection Hj as <-. lia.
    + intros f v. rewrite HK. unfold upd. destruct (f =? s_fd y) eqn:E1.
      * intros _. assert (f = s_fd y) as -> by lia. rewrite Nf'. congruence.
      * destruct (f =? s_fd x) eqn:E2; [discriminate|]. intros Hv. exact (inv_kern _ _ _ I _ _ Hv).
  - apply Nat.ltb_ge in E. assert (i = count s - 1)%nat as Ei by lia.
    eexists. split; [reflexivity|].
    split; [|split; [reflexivity|split; [unfold count; simpl; exact Lf|]]].
    2:{ intros j Hj. assert ((j =? i)%nat = false) as -> by (apply Nat.eqb_neq; lia). simpl. apply nth_firstn; exact Hj. }
    pose proof (inv_size _ _ _ I) as HS.
    split; simpl.
    + unfold count at 1. simpl. rewrite Lf. lia.
    + intros j z Hj. assert (j < count s - 1)%nat as Lj.
      { apply nth_some_lt in Hj. rewrite Lf in Hj. exact Hj. }
      rewrite nth_firstn in Hj by exact Lj.
      destruct (inv_slots _ _ _ I _ _ Hj) as (ez & A & B & C & D). exists ez. split; [assumption|].
      assert (s_fd z =? s_fd x = false) as E2.
      { apply Z.eqb_neq. intros Ef. pose proof (inv_inj _ _ _ _ _ _ _ I Hj Hx Ef). lia. }
      rewrite kget_filter, E2. unfold upd. rewrite E2. auto.
    + intros f e. unfold upd. destruct (f =? s_fd x) eqn:Ef; [discriminate|]. intros He.
      destruct (inv_world _ _ _ I _ _ He) as (j & z & Hj & Ez).
      pose proof (nth_some_lt _ _ _ Hj) as Lj. fold (count s) in Lj.
      exists j, z. split; [|assumption]. rewrite nth_firstn; [assumption|].
      destruct (Nat.eq_dec j i) as [->|]; [|lia]. rewrite Hx in Hj. injection Hj as <-. lia.
    + intros f v. rewrite kget_filter. unfold upd. destruct (f =? s_fd x); [discriminate|].
      intros Hv. exact (inv_kern _ _ _ I _ _ Hv).
Qed.

(** Changing the second context or the limit of one entry *)
Lemma inv_change m s w i x x' e' : inv m s w -> nth_error (slots s) i = Some x ->
  s_fd x' = s_fd x -> s_events x' = s_events x ->
  (forall ev, w (s_fd x) = Some (mkentry ev (s_ctx x) (s_ctx2 x) (dl (s_timeout x))) ->
     e' = mkentry ev (s_ctx x') (s_ctx2 x') (dl (s_timeout x'))) ->
  inv m (with_slots s (put i x' (slots s))) (upd w (s_fd x) (Some e')).
Proof.
  intros I Hx Ef Ee He. pose proof (nth_some_lt _ _ _ Hx) as Li.
  pose proof (inv_slots _ _ _ I _ _ Hx) as (ev & Hev & Kx & Wx & Sx).
  specialize (He _ Wx). split; simpl.
  - unfold count. simpl. rewrite put_length. exact (inv_size _ _ _ I).
  - intros j z. rewrite nth_put by exact Li. destruct (j =? i)%nat eqn:Ej.
    + apply Nat.eqb_eq in Ej. subst j. intros Hz. injection Hz as <-. exists ev. split; [assumption|].
      rewrite Ef. split; [assumption|]. unfold upd. rewrite Z.eqb_refl. split; [congruence|]. rewrite Ee. exact Sx.
    + apply Nat.eqb_neq in Ej. intros Hz.
      destruct (inv_slots _ _ _ I _ _ Hz) as (ez & A & B & C & D). exists ez. split; [assumption|]. split; [assumption|].
      unfold upd. destruct (s_fd z =? s_fd x) eqn:E2; [|auto]. exfalso. apply Ej.
      apply (inv_inj _ _ _ _ _ _ _ I Hz Hx). lia.
  - intros f e. unfold upd. destruct (f =? s_fd x) eqn:E2; intros H.
    + exists i, x'. rewrite nth_put, Nat.eqb_refl by exact Li. split; [reflexivity|lia].
    + destruct (inv_world _ _ _ I _ _ H) as (j & z & Hj & Ez). exists j, z. split; [|assumption].
      rewrite nth_put by exact Li. destruct (j =? i)%nat eqn:Ej; [|assumption]. apply Nat.eqb_eq in Ej. subst j.
      rewrite Hx in Hj. injection Hj as <-. lia.
  - intros f v Hv. unfold upd. destruct (f =? s_fd x); [discriminate|]. exact (inv_kern _ _ _ I _ _ Hv).
Qed.
Lemma dl_deadline now interval : 0 < now -> dl (if interval <? 0 then 0 else now + interval) = deadline now interval.
Proof.
  intros H. unfold dl, deadline. destruct (interval <? 0) eqn:E; [reflexivity|].
  destruct (now + interval >? 0) eqn:E2; [reflexivity|]. lia.
Qed.
Lemma inv_watch m s w i x interval now : inv m s w -> 0 < now -> nth_error (slots s) i = Some x ->
  exists e, w (s_fd x) = Some e /\
    fdset_set_watchdog s i interval now = (KNOT_EOK, snd (fdset_set_watchdog s i interval now)) /\
    inv m (snd (fdset_set_watchdog s i interval now))
      (upd w (s_fd x) (Some (mkentry (e_events e) (e_ctx e) (e_ctx2 e) (deadline now interval)))).
Proof.
  intros I Hn Hx. destruct (inv_slots _ _ _ I _ _ Hx) as (ev & _ & _ & Wx & _). eexists. split; [exact Wx|].
  unfold fdset_set_watchdog. rewrite Hx. split; [reflexivity|]. simpl.
  apply inv_change; auto. simpl. intros ev' Hw. rewrite Wx in Hw. injection Hw as ->. rewrite dl_deadline by exact Hn. reflexivity.
Qed.
Lemma inv_ctx2 m s w i x v : inv m s w -> nth_error (slots s) i = Some x ->
  exists e s', w (s_fd x) = Some e /\ fdset_set_ctx2 s i v = Ok s' /\
    s' = with_slots s (put i (mkslot (s_fd x) (s_events x) (s_ctx x) v (s_timeout x)) (slots s)) /\
    inv m s' (upd w (s_fd x) (Some (mkentry (e_events e) (e_ctx e) v (e_deadline e)))).
Proof.
  intros I Hx. destruct (inv_slots _ _ _ I _ _ Hx) as (ev & _ & _ & Wx & _). eexists. eexists. split; [exact Wx|].
  unfold fdset_set_ctx2. rewrite Hx. split; [reflexivity|]. split; [reflexivity|].
  apply inv_change; auto. simpl. intros ev' Hw. rewrite Wx in Hw. injection Hw as ->. reflexivity.
Qed.
