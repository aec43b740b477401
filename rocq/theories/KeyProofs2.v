(** A rollover run and a confirmation as sequences of small steps on the set of keys. *)
From Verif Require Import Base KeyModel KeySpec KeyProofs.
From Coq Require Import Permutation.

(** *** Lists *)
Lemma zget_split : forall {A} (l : list A) i x, zget l i = Some x -> exists a b, l = a ++ x :: b /\ zlen a = i.
Proof.
  intros A l. induction l as [|y l IH]; intros i x H.
  - apply zget_some in H. rewrite zlen_nil in H. lia.
  - pose proof (zget_some _ _ _ H) as B. destruct (i =? 0) eqn:E.
    + replace i with 0 in * by lia. rewrite zget_0 in H. injection H as ->. exists [], l. auto.
    + rewrite zget_cons in H by lia. destruct (IH _ _ H) as (a & b & -> & L). exists (y :: a), b. rewrite zlen_cons. split; [reflexivity|lia].
Qed.
Lemma zset_at : forall {A} (a b : list A) x y, zset (a ++ x :: b) (zlen a) y = a ++ y :: b.
Proof.
  intros. unfold zset, zfirstn, zskipn, zlen. rewrite Nat2Z.id. rewrite firstn_app, Nat.sub_diag, firstn_all. cbn [firstn]. rewrite app_nil_r. f_equal. f_equal.
  replace (Z.to_nat (Z.of_nat (length a) + 1)) with (length a + 1)%nat by lia. rewrite skipn_app. rewrite skipn_all2 by lia. replace (length a + 1 - length a)%nat with 1%nat by lia. reflexivity.
Qed.
Lemma zset_perm : forall {A} (l : list A) i x, zget l i = Some x -> exists r, Permutation l (x :: r) /\ forall y, Permutation (zset l i y) (y :: r).
Proof.
  intros A l i x H. destruct (zget_split _ _ _ H) as (a & b & -> & <-). exists (a ++ b). split; [symmetry; apply Permutation_middle|]. intros y. rewrite zset_at. symmetry. apply Permutation_middle.
Qed.
Lemma zset_id : forall {A} (l : list A) i x, zget l i = Some x -> zset l i x = l.
Proof. intros A l i x H. destruct (zget_split _ _ _ H) as (a & b & -> & <-). apply zset_at. Qed.
Lemma zdel_perm : forall {A} (l : list A) i x, zget l i = Some x -> Permutation l (x :: zfirstn i l ++ zskipn (i + 1) l).
Proof.
  intros A l i x H. transitivity (zfirstn i l ++ x :: zskipn (i + 1) l); [|symmetry; apply Permutation_middle]. fold (zset l i x). rewrite zset_id by auto. reflexivity.
Qed.
Lemma perm_two : forall {A} (x y : A) r s, Permutation (x :: r) (y :: s) -> x <> y -> exists t, Permutation r (y :: t) /\ Permutation s (x :: t).
Proof.
  intros A x y r s H N. assert (I : In y r). { assert (I : In y (x :: r)) by (eapply Permutation_in; [symmetry; exact H|left; reflexivity]). destruct I; [contradiction|assumption]. }
  apply in_split in I. destruct I as (a & b & ->). exists (a ++ b). split; [symmetry; apply Permutation_middle|].
  apply (Permutation_cons_inv (a := y)). rewrite <- H. rewrite perm_swap. constructor. symmetry. apply Permutation_middle.
Qed.
Lemma find_some : forall f ks i o, find_key f ks i = Some o -> exists k, zget ks (o - i) = Some k /\ f k = true.
Proof.
  intros f ks. induction ks as [|k ks IH]; intros i o H; [discriminate|]. cbn [find_key] in H. destruct (f k) eqn:E.
  - injection H as <-. exists k. rewrite Z.sub_diag, zget_0. auto.
  - destruct (IH _ _ H) as (q & G & F). pose proof (zget_some _ _ _ G). exists q. rewrite zget_cons by lia. replace (o - i - 1) with (o - (i + 1)) by lia. auto.
Qed.
Lemma find_none : forall f ks i, find_key f ks i = None -> forall k, In k ks -> f k = false.
Proof.
  intros f ks. induction ks as [|q ks IH]; intros i H k I; [destruct I|]. cbn [find_key] in H. destruct (f q) eqn:E; [discriminate|]. destruct I as [<- | I]; eauto.
Qed.

(** *** Choosing the action *)
Definition due (p : policy) (now : Z) (ks : list key) (k : key) (ty : atype) : Prop :=
  exists tm, key_action p now (running_rollover now ks) k = Some (ty, tm) /\ past tm now = true.
(** Nothing is left to do now *)
Definition quiet (p : policy) (now : Z) (ks : list key) : Prop := forall k ty, In k ks -> ~ due p now ks k ty.

Lemma w64_pos : forall x, 0 <= w64 x. Proof. intros. unfold w64. lia. Qed.
Lemma w32_pos : forall x, 0 <= w32 x. Proof. intros. unfold w32. lia. Qed.
Lemma kadd_pos : forall a b, 0 <= a -> 0 <= knot_time_add a b.
Proof. intros. unfold knot_time_add. destruct (negb _); auto using w64_pos. Qed.
Lemma kplus_pos : forall a b, 0 <= knot_time_plus a b.
Proof. intros. unfold knot_time_plus. destruct (_ && _); [apply w64_pos|lia]. Qed.
Lemma action_pos : forall p now run k ty tm, kinv now k -> key_action p now run k = Some (ty, tm) -> 0 <= tm.
Proof.
  intros p now run k ty tm K H. destruct K. unfold key_action in H.
  unfold alg_publish_time, ksk_ready_time, ksk_sbm_max_time, ksk_rollover_time, ksk_retire_time, alg_remove_time, ksk_remove_time, really_remove_time, zsk_active_time, zsk_rollover_time, zsk_remove_time in H.
  destruct (k_ksk k); destruct (get_key_state k now); repeat match type of H with context [if ?b then _ else _] => destruct b eqn:? end; inversion H; subst; auto using w64_pos, kplus_pos; try lia; try (apply kadd_pos; lia).
Qed.
Lemma next_spec : forall p fl now ks n i r, 0 < now -> allow_all fl -> Forall (kinv now) ks -> 0 <= i -> Z.of_nat n = zlen ks - i -> 0 <= a_time r ->
  (a_time r <> 0 -> exists k, zget ks (a_key r) = Some k /\ key_action p now (running_rollover now ks) k = Some (a_type r, a_time r) /\ a_ksk r = k_ksk k) ->
  exists a, next_loop p fl now ks i n false r = (ks, false, a) /\ 0 <= a_time a /\
    (a_time a <> 0 -> exists k, zget ks (a_key a) = Some k /\ key_action p now (running_rollover now ks) k = Some (a_type a, a_time a) /\ a_ksk a = k_ksk k) /\
    (a_time r <> 0 -> a_time a <> 0 /\ a_time a <= a_time r) /\
    (forall j k ty tm, i <= j -> zget ks j = Some k -> key_action p now (running_rollover now ks) k = Some (ty, tm) -> tm <> 0 -> a_time a <> 0 /\ a_time a <= tm).
Proof.
  intros p fl now ks n. induction n as [|n IH]; intros i r Hn [F1 F2] FK Hi HL Hr HR; cbn [next_loop].
  - exists r. split; [reflexivity|]. split; [exact Hr|]. split; [exact HR|]. split; [intros; lia|]. intros j k ty tm Hj G. pose proof (zget_some _ _ _ G). lia.
  - destruct (zget_in_range ks i ltac:(lia)) as (k & G). rewrite G. assert (K : kinv now k) by (rewrite Forall_forall in FK; eauto using zget_In).
    assert (SK : skipped fl k = false). { unfold skipped. rewrite (ki_po _ _ K), F1, F2. cbn [negb orb]. rewrite !andb_false_r. reflexivity. } rewrite SK.
    assert (CK : (if fl_preserve fl then k else clear_future_timers now k) = k) by (destruct (fl_preserve fl); auto using clear_id). cbv zeta. rewrite CK, (zset_id _ _ _ G), timing_eqb_refl. cbn [negb orb].
    assert (ST : forall r', 0 <= a_time r' -> (a_time r' <> 0 -> exists k, zget ks (a_key r') = Some k /\ key_action p now (running_rollover now ks) k = Some (a_type r', a_time r') /\ a_ksk r' = k_ksk k) ->
      (a_time r <> 0 -> a_time r' <> 0 /\ a_time r' <= a_time r) -> (forall ty tm, key_action p now (running_rollover now ks) k = Some (ty, tm) -> tm <> 0 -> a_time r' <> 0 /\ a_time r' <= tm) ->
      exists a, next_loop p fl now ks (i + 1) n false r' = (ks, false, a) /\ 0 <= a_time a /\
    (a_time a <> 0 -> exists k, zget ks (a_key a) = Some k /\ key_action p now (running_rollover now ks) k = Some (a_type a, a_time a) /\ a_ksk a = k_ksk k) /\
    (a_time r <> 0 -> a_time a <> 0 /\ a_time a <= a_time r) /\
    (forall j k ty tm, i <= j -> zget ks j = Some k -> key_action p now (running_rollover now ks) k = Some (ty, tm) -> tm <> 0 -> a_time a <> 0 /\ a_time a <= tm)).
    { intros r' R1 R2 R3 R4. destruct (IH (i + 1) r' Hn (conj F1 F2) FK ltac:(lia) ltac:(lia) R1 R2) as (a & A1 & A2 & A3 & A4 & A5). exists a. split; [exact A1|]. split; [exact A2|]. split; [exact A3|]. split.
      - intros N. destruct (R3 N) as [N1 N2]. destruct (A4 N1). lia.
      - intros j q ty tm Hj Gj KA NZ. destruct (Z.eq_dec j i) as [->|NE]; [|eapply A5; eauto; lia]. rewrite G in Gj. injection Gj as <-. destruct (R4 _ _ KA NZ) as [N1 N2]. destruct (A4 N1). lia. }
    destruct (key_action p now (running_rollover now ks) k) as [[ty tm]|] eqn:KA.
    + pose proof (action_pos _ _ _ _ _ _ K KA) as TP. destruct (knot_time_cmp tm (a_time r) <? 0) eqn:C.
      * apply ST; cbn [a_time a_key a_type a_ksk]; auto.
        -- intros _. exists k. auto.
        -- intros N. rewrite cmp_lt in C by lia. lia.
        -- intros ty' tm' E NZ. injection E as <- <-. lia.
      * apply ST; auto; try lia. intros ty' tm' E NZ. injection E as <- <-. destruct (Z.eq_dec (a_time r) 0) as [E0|E0]; [rewrite E0, cmp_lt0 in C by lia; lia|]. rewrite cmp_lt in C by lia. lia.
    + apply ST; auto; try lia. intros ty' tm' E. discriminate.
Qed.
Lemma next_action_spec : forall p fl now ks, 0 < now -> allow_all fl -> Forall (kinv now) ks ->
  exists a, next_action p fl now ks = (ks, false, a) /\
    (past (a_time a) now = false -> quiet p now ks) /\
    (past (a_time a) now = true -> exists k, zget ks (a_key a) = Some k /\ due p now ks k (a_type a) /\ a_ksk a = k_ksk k).
Proof.
  intros p fl now ks Hn HF FK. unfold next_action. destruct (next_spec p fl now ks (length ks) 0 (mkact AInvalid false 0 0) Hn HF FK ltac:(lia) ltac:(unfold zlen; lia) ltac:(cbn [a_time]; lia) ltac:(cbn [a_time]; lia)) as (a & A1 & A2 & A3 & _ & A5).
  exists a. split; [exact A1|]. split.
  - intros Q k ty I (tm & KA & PT). assert (TP : 0 <= tm) by (rewrite Forall_forall in FK; eapply action_pos; eauto). apply In_nth_error in I. destruct I as (j & G).
    assert (GZ : zget ks (Z.of_nat j) = Some k). { unfold zget. replace (Z.of_nat j <? 0) with false by lia. rewrite Nat2Z.id. exact G. }
    rewrite past_spec in PT, Q by lia. destruct (A5 (Z.of_nat j) k ty tm ltac:(lia) GZ KA ltac:(lia)). lia.
  - intros Q. rewrite past_spec in Q by lia. destruct (A3 ltac:(lia)) as (k & G & KA & KS). exists k. split; [exact G|]. split; [|exact KS]. exists (a_time a). split; [exact KA|]. rewrite past_spec by lia. exact Q.
Qed.

(** *** Steps *)
Definition newkey (p : policy) (now : Z) (ksk zsk : bool) (when : Z) (b : bool) : key :=
  mkkey (p_alg p) ksk zsk false (mktm now (if b then now else 0) (if b then 0 else now) (if ksk then when else 0) (if ksk then 0 else when) 0 0 0 0 0).
(** The key that gives way to a new one *)
Definition old_after (now fin : Z) (old new : key) : key :=
  with_t old (fun t =>
    if negb (k_alg old =? k_alg new) then let t := set_retire_active t now in if k_ksk old then set_post_active t fin else t
    else if k_ksk old then let t := set_retire_active t now in if k_zsk old then set_retire t fin else set_remove t fin
    else set_retire t now).
Definition zsk_after (now fin : Z) (z old new : key) : key :=
  with_t z (fun t => if negb (k_alg old =? k_alg new) then set_post_active t fin else set_retire t now).
Definition z_eligible (now : Z) (new z : key) : Prop :=
  k_zsk z = true /\ k_ksk z = false /\ (k_alg z <> k_alg new \/ k_zsk new = true) /\ (get_key_state z now = KActive \/ get_key_state z now = KRetireActive).
Definition activated (now : Z) (k : key) : key := with_t k (fun t => set_active t now).
(** A new key takes over *)
Inductive replaced (now fin : Z) (new : key) (ks ks' : list key) : Prop :=
| rp_alone : forall r, Permutation ks (new :: r) -> Permutation ks' (activated now new :: r) ->
    (forall x, In x r -> k_ksk x = k_ksk new -> get_key_state x now <> KActive) -> replaced now fin new ks ks'
| rp_old : forall old r, Permutation ks (new :: old :: r) -> Permutation ks' (activated now new :: old_after now fin old new :: r) ->
    k_ksk old = k_ksk new -> get_key_state old now = KActive ->
    (k_ksk new = true -> forall z, In z r -> ~ z_eligible now new z) -> replaced now fin new ks ks'
| rp_both : forall old z r, Permutation ks (new :: old :: z :: r) -> Permutation ks' (activated now new :: old_after now fin old new :: zsk_after now fin z old new :: r) ->
    k_ksk new = true -> k_ksk old = true -> get_key_state old now = KActive -> z_eligible now new z -> replaced now fin new ks ks'.

Definition ksk_gone (now : Z) (ks : list key) : Prop := key_present now ks true false = false /\ key_present now ks true true = false.
Definition as_before (p : policy) (now : Z) (ks : list key) : Prop :=
  forall k, In k ks -> k_ksk k = true -> get_key_state k now = KReady \/ get_key_state k now = KActive -> k_alg k = p_alg p /\ k_zsk k = p_sts p.
Inductive step (strict : Prop) (p : policy) (now : Z) (ks ks' : list key) : Prop :=
| st_init : ksk_gone now ks ->
    ks' = ks ++ newkey p now true (p_sts p) now false :: (if p_sts p || key_present now ks false true then [] else [newkey p now false true now false]) -> step strict p now ks ks'
| st_force : running_rollover now ks = false -> (strict -> as_before p now ks) -> ks' = ks ++ [newkey p now true (p_sts p) 0 false] -> step strict p now ks ks'
| st_new_zsk : running_rollover now ks = false -> ks' = ks ++ [newkey p now false true 0 false] -> step strict p now ks ks'
| st_new_ksk : running_rollover now ks = false -> signing_scheme_present now p ks = true ->
    (exists k, In k ks /\ k_ksk k = true /\ k_alg k = p_alg p /\ get_key_state k now = KActive) -> ks' = ks ++ [newkey p now true (p_sts p) 0 false] -> step strict p now ks ks'
| st_both : forall b, running_rollover now ks = false ->
    ks' = ks ++ newkey p now true (p_sts p) 0 b :: (if p_sts p then [] else [newkey p now false true 0 b]) -> step strict p now ks ks'
| st_publish : forall k r, Permutation ks (k :: r) -> get_key_state k now = KPreActive -> due p now ks k APublish ->
    Permutation ks' (with_t k (fun t => set_publish t now) :: r) -> step strict p now ks ks'
| st_submit : forall k r, Permutation ks (k :: r) -> get_key_state k now = KPublished -> k_ksk k = true -> due p now ks k ASubmit ->
    Permutation ks' (with_t k (fun t => set_ready t now) :: map (fun k => if k_ksk k && in_state now KReady k then activated now k else k) r) -> step strict p now ks ks'
| st_replace : forall k, In k ks -> get_key_state k now = (if k_ksk k then KReady else KPublished) -> due p now ks k AReplace -> replaced now now k ks ks' -> step strict p now ks ks'
| st_remove : forall k r, Permutation ks (k :: r) -> get_key_state k now = KRetired \/ get_key_state k now = KPostActive -> due p now ks k ARemove ->
    Permutation ks' (with_t k (fun t => set_remove t now) :: r) -> step strict p now ks ks'
| st_delete : forall k, Permutation ks (k :: ks') -> get_key_state k now = KRemoved -> due p now ks k AReallyRemove -> p_keep_deleted p = false -> step strict p now ks ks'.

(** *** Taking over *)
Lemma upd_ok : forall ks i k f, zget ks i = Some k -> upd ks i f = Ok (zset ks i (with_t k f)).
Proof. intros ks i k f H. unfold upd. rewrite H. reflexivity. Qed.
Lemma state_ne : forall now a b s s', get_key_state a now = s -> get_key_state b now = s' -> s <> s' -> a <> b.
Proof. intros. congruence. Qed.
Lemma w64_id : forall x, 0 <= x < 2 ^ 64 -> w64 x = x. Proof. intros. unfold w64. apply Z.mod_small. lia. Qed.
Lemma new_sigs : forall now delay ks i new, 0 < now < 2 ^ 63 -> is_u32 delay -> Forall (kinv now) ks -> zget ks i = Some new ->
  get_key_state new now = (if k_ksk new then KReady else KPublished) ->
  exists ks', exec_new_signatures now ks i delay = Ok ks' /\ replaced now (now + delay) new ks ks'.
Proof.
  intros now delay ks i new Hn HD FK G ST. unfold exec_new_signatures. rewrite G. unfold is_u32 in HD. rewrite (w64_id (now + delay)) by lia.
  pose proof (proj1 (Forall_forall _ _) FK) as FA. assert (KN : kinv now new) by eauto using zget_In.
  assert (AN : act new = 0). { pose proof (state_spec now new ltac:(lia) KN) as F. rewrite ST in F. destruct (k_ksk new); cbn [state_facts] in F; tauto. }
  assert (NA : get_key_state new now <> KActive) by (rewrite ST; destruct (k_ksk new); discriminate).
  assert (FIN : forall k, zget k i = Some new -> (match zget k i with
    | None => UB
    | Some new => if negb (in_state now (if k_ksk new then KReady else KPublished) new) then UB else upd k i (fun t => set_active t (knot_time_min now (t_active t))) end) = Ok (zset k i (activated now new))).
  { intros k Gk. rewrite Gk. replace (in_state now (if k_ksk new then KReady else KPublished) new) with true by (symmetry; apply in_state_spec; exact ST). cbn [negb]. rewrite (upd_ok _ _ _ _ Gk).
    unfold activated, with_t. rewrite AN, min_0 by lia. reflexivity. }
  destruct (key2retire now ks (k_ksk new)) as [o|] eqn:KR.
  - unfold key2retire in KR. destruct (find_some _ _ _ _ KR) as (old & GO & FO). rewrite Z.sub_0_r in GO. rewrite GO.
    apply andb_true_iff in FO. destruct FO as [E1 E2]. apply eqb_prop in E1. apply in_state_spec in E2.
    assert (KO : kinv now old) by eauto using zget_In.
    rewrite (upd_ok _ _ _ _ GO). cbn [rbind]. change (with_t old _) with (old_after now (now + delay) old new).
    set (ks1 := zset ks o (old_after now (now + delay) old new)).
    assert (NO : o <> i) by (intros ->; rewrite G in GO; injection GO as <-; auto).
    assert (G1 : zget ks1 i = Some new). { unfold ks1. rewrite zget_zset by (apply zget_some in GO; exact GO). replace (i =? o) with false by lia. exact G. }
    assert (AO : act old <> 0). { pose proof (state_spec now old ltac:(lia) KO) as F. rewrite E2 in F. cbn [state_facts] in F. tauto. }
    assert (AO' : act (old_after now (now + delay) old new) = act old). { unfold old_after, with_t. cbn [k_t]. repeat match goal with |- context [if ?b then _ else _] => destruct b end; reflexivity. }
    assert (KO' : k_ksk (old_after now (now + delay) old new) = k_ksk old) by reflexivity.
    destruct (zset_perm _ _ _ GO) as (r1 & P1 & P1'). specialize (P1' (old_after now (now + delay) old new)). fold ks1 in P1'.
    assert (TWO : exists r, Permutation r1 (new :: r) /\ forall new', Permutation (zset ks1 i new') (new' :: old_after now (now + delay) old new :: r)).
    { destruct (zset_perm _ _ _ G1) as (r2 & P2 & P2'). assert (D : new <> old_after now (now + delay) old new) by (intros E; rewrite E in AN; congruence).
      assert (PP : Permutation (new :: r2) (old_after now (now + delay) old new :: r1)) by (rewrite <- P2; exact P1'). destruct (perm_two _ _ _ _ PP D) as (t & T1 & T2). exists t. split; [exact T2|]. intros new'. rewrite (P2' new'), T1. reflexivity. }
    destruct TWO as (r & R1 & R2). assert (PK : Permutation ks (new :: old :: r)) by (rewrite P1, R1; apply perm_swap).
    destruct (k_ksk new) eqn:Q.
    + destruct (zsk2retire now ks1 new) as [j|] eqn:ZR.
      * unfold zsk2retire in ZR. destruct (find_some _ _ _ _ ZR) as (z & GZ & FZ). rewrite Z.sub_0_r in GZ.
        assert (EZ : z_eligible now new z). { unfold z_eligible. rewrite !andb_true_iff, !orb_true_iff, !in_state_spec in FZ. destruct FZ as [[[Z1 Z2] Z3] Z4]. repeat split; auto; destruct (k_ksk z); try discriminate; auto. destruct Z3 as [Z3|Z3]; auto. left. lia. }
        destruct EZ as (EZ1 & EZ2 & EZ3 & EZ4).
        assert (DZ : z <> old_after now (now + delay) old new) by (intros E; rewrite E, KO' in EZ2; congruence).
        assert (ZN : z <> new) by (intros E; rewrite E in EZ2; congruence).
        rewrite (upd_ok _ _ _ _ GZ). cbn [rbind]. change (with_t z _) with (zsk_after now (now + delay) z old new).
        set (ks2 := zset ks1 j (zsk_after now (now + delay) z old new)).
        assert (NJ : j <> i) by (intros ->; rewrite G1 in GZ; congruence).
        assert (G2 : zget ks2 i = Some new). { unfold ks2. rewrite zget_zset by (apply zget_some in GZ; exact GZ). replace (i =? j) with false by lia. exact G1. }
        destruct (zset_perm _ _ _ GZ) as (s1 & S1 & S1'). specialize (S1' (zsk_after now (now + delay) z old new)). fold ks2 in S1'.
        assert (PA : Permutation (z :: s1) (old_after now (now + delay) old new :: r1)) by (rewrite <- S1; exact P1').
        destruct (perm_two _ _ _ _ PA DZ) as (t & T1 & T2).
        assert (PB : Permutation (new :: r) (z :: t)) by (rewrite <- R1; exact T2).
        destruct (perm_two _ _ _ _ PB ltac:(congruence)) as (u & U1 & U2).
        exists (zset ks2 i (activated now new)). split; [rewrite (FIN _ G2); reflexivity|].
        apply (rp_both now (now + delay) new _ _ old z u).
        -- rewrite PK, U1. reflexivity.
        -- destruct (zset_perm _ _ _ G2) as (v & V1 & V2). rewrite (V2 (activated now new)). constructor.
           apply (Permutation_cons_inv (a := new)). rewrite <- V1, S1', T1, U2. clear. eapply perm_trans; [apply perm_skip, perm_swap|]. eapply perm_trans; [apply perm_swap|]. apply perm_skip, perm_swap.
        -- exact Q.
        -- congruence.
        -- exact E2.
        -- repeat split; auto.
      * cbn [rbind]. exists (zset ks1 i (activated now new)). split; [rewrite (FIN _ G1); reflexivity|]. apply (rp_old now (now + delay) new _ _ old r); auto; try congruence.
        intros _ z I EZ. assert (IZ : In z ks1). { eapply Permutation_in; [symmetry; exact P1'|]. right. eapply Permutation_in; [symmetry; exact R1|]. right. exact I. }
        unfold zsk2retire in ZR. pose proof (find_none _ _ _ ZR z IZ) as FN. destruct EZ as (Z1 & Z2 & Z3 & Z4). cbv beta in FN. rewrite Z1, Z2 in FN. cbn [andb negb] in FN.
        apply andb_false_iff in FN. destruct FN as [FN|FN].
        -- apply orb_false_iff in FN. destruct Z3; [lia|]. destruct FN. congruence.
        -- apply orb_false_iff in FN. destruct FN as [F1 F2]. destruct Z4 as [Z4|Z4]; apply in_state_spec in Z4; congruence.
    + cbn [rbind]. exists (zset ks1 i (activated now new)). split; [rewrite (FIN _ G1); reflexivity|]. apply (rp_old now (now + delay) new _ _ old r); auto; try congruence.
  - cbn [rbind]. exists (zset ks i (activated now new)). split; [rewrite (FIN _ G); reflexivity|]. destruct (zset_perm _ _ _ G) as (r & P1 & P2). apply (rp_alone now (now + delay) new _ _ r); auto.
    intros x I KX SX. unfold key2retire in KR. assert (IX : In x ks) by (eapply Permutation_in; [symmetry; exact P1|]; right; exact I). pose proof (find_none _ _ _ KR x IX) as F. cbv beta in F. apply in_state_spec in SX. rewrite KX, eqb_reflx, SX in F. discriminate.
Qed.
