From Verif Require Import Base HeapModel HeapSpec.

Definition in_heap (h : heap) (x : Z) : Prop := exists i, 1 <= i <= h_num h /\ h_data h i = Some x.
Definition valid (h : heap) (p : posmap) : Prop :=
  0 <= h_num h <= h_max h /\ h_slots h = h_max h + 1 /\
  forall i, 1 <= i <= h_num h -> exists x, h_data h i = Some x /\ p x = i.
Definition ok_pair (cmp : Z -> Z -> Z) (h : heap) (i : Z) : Prop :=
  forall x y, h_data h i = Some x -> h_data h (i / 2) = Some y -> 0 <= cmp x y.
Definition ordered (cmp : Z -> Z -> Z) (h : heap) : Prop := forall i, 2 <= i <= h_num h -> ok_pair cmp h i.
Definition same (h : heap) (p : posmap) (h' : heap) (p' : posmap) : Prop :=
  h_num h' = h_num h /\ h_max h' = h_max h /\ h_slots h' = h_slots h /\
  (forall x, in_heap h' x <-> in_heap h x) /\ (forall x, ~ in_heap h x -> p' x = p x).

Lemma same_refl : forall h p, same h p h p.
Proof. repeat split; auto. Qed.
Lemma same_trans : forall h p h1 p1 h2 p2, same h p h1 p1 -> same h1 p1 h2 p2 -> same h p h2 p2.
Proof.
  intros h p h1 p1 h2 p2 (A1 & A2 & A3 & A4 & A5) (B1 & B2 & B3 & B4 & B5).
  split; [congruence|]. split; [congruence|]. split; [congruence|]. split.
  - intros x. rewrite B4. apply A4.
  - intros x H. rewrite B5; [auto|]. rewrite A4. auto.
Qed.

Lemma upd_eq : forall A (f : Z -> A) k v, upd f k v k = v.
Proof. intros. unfold upd. rewrite Z.eqb_refl. auto. Qed.
Lemma upd_neq : forall A (f : Z -> A) k v i, i <> k -> upd f k v i = f i.
Proof. intros. unfold upd. destruct (i =? k) eqn:E; auto; lia. Qed.
Ltac upds := repeat (rewrite upd_eq in * || (rewrite upd_neq in * by (lia || congruence))).

Lemma helem_ok : forall h i x, 0 <= i < h_slots h -> h_data h i = Some x -> helem h i = Ok x.
Proof. intros. unfold helem. replace (_ && _) with true by lia. rewrite H0. auto. Qed.
Lemma hset_ok : forall h i x, 0 <= i < h_slots h ->
  hset h i x = Ok (mkheap (h_num h) (h_max h) (h_slots h) (upd (h_data h) i (Some x))).
Proof. intros. unfold hset. replace (_ && _) with true by lia. auto. Qed.

(** the element at a position *)
Lemma valid_at : forall h p i, valid h p -> 1 <= i <= h_num h -> exists x, h_data h i = Some x /\ p x = i /\ helem h i = Ok x.
Proof.
  intros h p i (H1 & H2 & H3) Hi. destruct (H3 i Hi) as (x & E & P). exists x. repeat split; auto. apply helem_ok; auto. lia.
Qed.
Lemma valid_pos : forall h p i x, valid h p -> 1 <= i <= h_num h -> h_data h i = Some x -> p x = i.
Proof. intros h p i x (H1 & H2 & H3) Hi E. destruct (H3 i Hi) as (y & E2 & P). congruence. Qed.
Lemma valid_inj : forall h p i j x, valid h p -> 1 <= i <= h_num h -> 1 <= j <= h_num h ->
  h_data h i = Some x -> h_data h j = Some x -> i = j.
Proof. intros. rewrite <- (valid_pos h p i x), <- (valid_pos h p j x); auto. Qed.

Definition swapped (h : heap) (a b x y : Z) : heap :=
  mkheap (h_num h) (h_max h) (h_slots h) (upd (upd (h_data h) a (Some y)) b (Some x)).

Lemma swap_spec : forall h p a b x y, valid h p -> 1 <= a <= h_num h -> 1 <= b <= h_num h -> a <> b ->
  h_data h a = Some x -> h_data h b = Some y ->
  exists p', heap_swap h p a b = Ok (swapped h a b x y, p') /\ valid (swapped h a b x y) p' /\ same h p (swapped h a b x y) p'.
Proof.
  intros h p a b x y V Ha Hb Hab Ea Eb. pose proof V as (V1 & V2 & V3).
  assert (Hxy : x <> y) by (intros ->; apply Hab; eapply valid_inj; eauto).
  pose proof (valid_pos _ _ _ _ V Ha Ea) as Pa. pose proof (valid_pos _ _ _ _ V Hb Eb) as Pb.
  exists (upd (upd p y (p x)) x (p y)).
  assert (E : heap_swap h p a b = Ok (swapped h a b x y, upd (upd p y (p x)) x (p y))).
  { unfold heap_swap. replace (a =? b) with false by lia. rewrite (helem_ok h a x) by (auto; lia). cbn [rbind].
    rewrite (helem_ok h b y) by (auto; lia). cbn [rbind]. rewrite hset_ok by lia. cbn [rbind].
    rewrite hset_ok by (cbn [h_slots]; lia). cbn [rbind h_num h_max h_slots h_data]. fold (swapped h a b x y).
    rewrite (helem_ok (swapped h a b x y) a y) by (unfold swapped; cbn [h_slots h_data]; upds; auto; lia). cbn [rbind].
    rewrite (helem_ok (swapped h a b x y) b x) by (unfold swapped; cbn [h_slots h_data]; upds; auto; lia). cbn [rbind].
    auto. }
  split; [auto|]. split.
  - split; [cbn; lia|]. split; [cbn; lia|]. cbn [swapped h_num h_data]. intros i Hi.
    destruct (Z.eq_dec i b) as [->|Nb]; [exists x; upds; auto|]. destruct (Z.eq_dec i a) as [->|Na]; [exists y; upds; auto|].
    destruct (V3 i Hi) as (z & Ez & Pz). exists z. upds. split; [auto|].
    auto.
  - unfold same, in_heap. cbn [swapped h_num h_max h_slots h_data]. repeat split; auto.
    + intros (i & Hi & E1). destruct (Z.eq_dec i b) as [->|Nb]; [upds; injection E1 as <-; eauto|].
      destruct (Z.eq_dec i a) as [->|Na]; [upds; injection E1 as <-; eauto|]. upds. eauto.
    + intros (i & Hi & E1). destruct (Z.eq_dec i a) as [->|Na]; [exists b; upds; split; [lia|congruence]|].
      destruct (Z.eq_dec i b) as [->|Nb]; [exists a; upds; split; [lia|congruence]|]. exists i. upds. auto.
    + intros z Hz. rewrite !upd_neq; auto; intros ->; apply Hz; eauto.
Qed.

Lemma sw_a : forall h a b x y, a <> b -> h_data (swapped h a b x y) a = Some y.
Proof. intros. cbn [swapped h_data]. upds. auto. Qed.
Lemma sw_b : forall h a b x y, h_data (swapped h a b x y) b = Some x.
Proof. intros. cbn [swapped h_data]. upds. auto. Qed.
Lemma sw_o : forall h a b x y i, i <> a -> i <> b -> h_data (swapped h a b x y) i = h_data h i.
Proof. intros. cbn [swapped h_data]. upds. auto. Qed.

(** ** bubbling *)
Lemma bubble_up_spec : forall cmp, preorder cmp -> forall fuel h p e, valid h p -> 1 <= e <= h_num h -> (Z.to_nat e <= fuel)%nat ->
  (forall i, 2 <= i <= h_num h -> i <> e -> ok_pair cmp h i) ->
  (forall c x y, 2 <= c <= h_num h -> c / 2 = e -> 2 <= e -> h_data h c = Some x -> h_data h (e / 2) = Some y -> 0 <= cmp x y) ->
  exists h' p', heap_bubble_up fuel cmp h p e = Ok (h', p') /\ valid h' p' /\ ordered cmp h' /\ same h p h' p'.
Proof.
  intros cmp [Cas Ctr]. induction fuel as [|fuel IH]; intros h p e V He Hf HO HG; [lia|].
  cbn [heap_bubble_up]. destruct (e >? 1) eqn:E1.
  2:{ exists h, p. split; [auto|]. split; [auto|]. split; [|apply same_refl]. intros i Hi. apply HO; lia. }
  assert (Hq : 1 <= e / 2 <= h_num h) by lia.
  destruct (valid_at _ _ _ V Hq) as (y & Ey & Py & ->). destruct (valid_at _ _ _ V He) as (x & Ex & Px & ->). cbn [rbind].
  destruct (cmp y x <? 0) eqn:Ec.
  - exists h, p. split; [auto|]. split; [auto|]. split; [|apply same_refl]. intros i Hi.
    destruct (Z.eq_dec i e) as [->|N]; [|apply HO; auto]. intros a b Ha Hb. assert (a = x /\ b = y) as [-> ->] by (split; congruence).
    apply Cas. lia.
  - destruct (swap_spec h p e (e / 2) x y V He Hq) as (p1 & -> & V1 & S1); auto; [lia|]. cbn [rbind].
    assert (Hyx : 0 <= cmp y x) by lia.
    destruct (IH (swapped h e (e / 2) x y) p1 (e / 2)) as (h' & p' & E & V' & O' & S'); auto; try (cbn [swapped h_num]; lia).
    + cbn [swapped h_num]. intros i Hi Ni a b Ha Hb.
      destruct (Z.eq_dec i e) as [->|N].
      { rewrite sw_a in Ha by lia. rewrite sw_b in Hb. congruence. }
      rewrite sw_o in Ha by auto.
      destruct (Z.eq_dec (i / 2) e) as [E3|N3].
      { rewrite E3, sw_a in Hb by lia. injection Hb as <-. apply (HG i a y); auto; lia. }
      destruct (Z.eq_dec (i / 2) (e / 2)) as [E4|N4].
      { rewrite E4, sw_b in Hb. injection Hb as <-. apply (Ctr a y x); auto. eapply (HO i Hi N); eauto. rewrite E4. auto. }
      rewrite sw_o in Hb by auto. eapply (HO i Hi N); eauto.
    + intros c a b Hc Ec2 Hq2 Ha Hb. cbn [swapped h_num] in Hc. rewrite sw_o in Hb by lia.
      assert (Hyb : 0 <= cmp y b) by (eapply (HO (e / 2)); eauto; lia).
      destruct (Z.eq_dec c e) as [->|N].
      { rewrite sw_a in Ha by lia. injection Ha as <-. auto. }
      rewrite sw_o in Ha by lia. apply (Ctr a y b); auto. eapply (HO c); eauto. rewrite Ec2. auto.
    + exists h', p'. split; [auto|]. split; [auto|]. split; [auto|]. eapply same_trans; eauto.
Qed.

Lemma bubble_down_spec : forall cmp, preorder cmp -> forall fuel h p e, valid h p -> 1 <= e ->
  (Z.to_nat (h_num h - e + 2) <= fuel)%nat -> (0 < fuel)%nat ->
  (forall i, 2 <= i <= h_num h -> i / 2 <> e -> ok_pair cmp h i) ->
  (forall c x y, 2 <= c <= h_num h -> c / 2 = e -> 2 <= e -> h_data h c = Some x -> h_data h (e / 2) = Some y -> 0 <= cmp x y) ->
  exists h' p', heap_bubble_down fuel cmp h p e = Ok (h', p') /\ valid h' p' /\ ordered cmp h' /\ same h p h' p'.
Proof.
  intros cmp [Cas Ctr]. induction fuel as [|fuel IH]; intros h p e V He Hf Hf0 HO HG; [lia|].
  cbn [heap_bubble_down]. cbv zeta. destruct (2 * e >? h_num h) eqn:E1.
  { exists h, p. split; [auto|]. split; [auto|]. split; [|apply same_refl]. intros i Hi. apply HO; lia. }
  assert (He' : 1 <= e <= h_num h) by lia. assert (Hl : 1 <= 2 * e <= h_num h) by lia.
  destruct (valid_at _ _ _ V He') as (x & Ex & Px & ->). destruct (valid_at _ _ _ V Hl) as (l & El & Pl & Hel). rewrite Hel. cbn [rbind].
  (* the swap with the smaller child *)
  assert (SW : forall k z, (k = 2 * e \/ (k = 2 * e + 1 /\ k <= h_num h)) -> h_data h k = Some z -> 0 <= cmp x z ->
    (forall i w, 2 <= i <= h_num h -> i / 2 = e -> h_data h i = Some w -> 0 <= cmp w z) ->
    exists h' p', (let* (h, p) := heap_swap h p e k in heap_bubble_down fuel cmp h p k) = Ok (h', p') /\ valid h' p' /\ ordered cmp h' /\ same h p h' p').
  { intros k z Hk Ez Hxz Hmin. assert (Hkr : 1 <= k <= h_num h) by lia. assert (Hk2 : k / 2 = e) by lia.
    destruct (swap_spec h p e k x z V He' Hkr) as (p1 & -> & V1 & S1); auto; [lia|]. cbn [rbind].
    destruct (IH (swapped h e k x z) p1 k) as (h' & p' & E & V' & O' & S'); auto; try (cbn [swapped h_num]; lia).
    - cbn [swapped h_num]. intros i Hi Ni a b Ha Hb.
      destruct (Z.eq_dec i k) as [->|Nk].
      { rewrite sw_b in Ha. rewrite Hk2, sw_a in Hb by lia. congruence. }
      destruct (Z.eq_dec i e) as [->|Ne].
      { rewrite sw_a in Ha by lia. injection Ha as <-. rewrite sw_o in Hb by lia. apply (HG k z b); auto; lia. }
      rewrite sw_o in Ha by auto.
      destruct (Z.eq_dec (i / 2) e) as [E3|N3].
      { rewrite E3, sw_a in Hb by lia. injection Hb as <-. apply (Hmin i a); auto. }
      rewrite sw_o in Hb by auto. eapply (HO i Hi N3); eauto.
    - intros c a b Hc Ec2 Hq2 Ha Hb. cbn [swapped h_num] in Hc. rewrite Hk2, sw_a in Hb by lia. injection Hb as <-.
      rewrite sw_o in Ha by lia. apply (HO c) with (x := a); auto; [lia|]. rewrite Ec2. auto.
    - exists h', p'. split; [auto|]. split; [auto|]. split; [auto|]. eapply same_trans; eauto. }
  assert (Hrefl : forall w, 0 <= cmp w w) by (intros w; destruct (Z_lt_le_dec (cmp w w) 0) as [C|C]; auto).
  destruct (2 * e =? h_num h) eqn:E2; cbn [negb rbind].
  - (* only a left child *)
    destruct (cmp x l <? 0) eqn:Ec; cbn [rbind].
    + exists h, p. split; [auto|]. split; [auto|]. split; [|apply same_refl]. intros i Hi.
      destruct (Z.eq_dec (i / 2) e) as [E3|N3]; [|apply HO; auto]. assert (i = 2 * e) as -> by lia.
      intros a b Ha Hb. rewrite E3 in Hb. assert (a = l /\ b = x) as [-> ->] by (split; congruence). apply Cas. lia.
    + apply (SW (2 * e) l); auto; [lia|]. intros i w Hi E3 Hw. assert (i = 2 * e) as -> by lia. assert (w = l) as -> by congruence. auto.
  - assert (Hr : 1 <= 2 * e + 1 <= h_num h) by lia. destruct (valid_at _ _ _ V Hr) as (r & Er & Pr & ->). cbn [rbind].
    assert (Hch : forall i w, 2 <= i <= h_num h -> i / 2 = e -> h_data h i = Some w -> w = l \/ w = r).
    { intros i w Hi E3 Hw. assert (i = 2 * e \/ i = 2 * e + 1) as [-> | ->] by lia; [left|right]; congruence. }
    destruct (cmp x l <? 0) eqn:Ec; cbn [rbind].
    + destruct (cmp x r <? 0) eqn:Ec2; cbn [rbind].
      * exists h, p. split; [auto|]. split; [auto|]. split; [|apply same_refl]. intros i Hi.
        destruct (Z.eq_dec (i / 2) e) as [E3|N3]; [|apply HO; auto].
        intros a b Ha Hb. rewrite E3 in Hb. assert (b = x) as -> by congruence.
        destruct (Hch i a Hi E3 Ha) as [-> | ->]; apply Cas; lia.
      * destruct (cmp r l <? 0) eqn:Ec3; cbn [rbind].
        -- apply (SW (2 * e + 1) r); auto; [lia|lia|]. intros i w Hi E3 Hw. destruct (Hch i w Hi E3 Hw) as [-> | ->]; auto. apply Cas. lia.
        -- exfalso. assert (0 <= cmp x l); [|lia]. apply (Ctr x r l); lia.
    + destruct (cmp r l <? 0) eqn:Ec3; cbn [rbind].
      * assert (0 <= cmp l r) by (apply Cas; lia).
        apply (SW (2 * e + 1) r); auto; [lia|apply (Ctr x l r); auto; lia|]. intros i w Hi E3 Hw. destruct (Hch i w Hi E3 Hw) as [-> | ->]; auto.
      * apply (SW (2 * e) l); auto; [lia|]. intros i w Hi E3 Hw. destruct (Hch i w Hi E3 Hw) as [-> | ->]; auto. lia.
Qed.

(** the head is minimal *)
Lemma head_min : forall cmp h p x i y, preorder cmp -> valid h p -> ordered cmp h -> 1 <= i <= h_num h ->
  h_data h 1 = Some x -> h_data h i = Some y -> 0 <= cmp y x.
Proof.
  intros cmp h p x i y [Cas Ctr] V O Hi E1. revert y. 
  assert (Hrefl : forall w, 0 <= cmp w w) by (intros w; destruct (Z_lt_le_dec (cmp w w) 0) as [C|C]; auto).
  assert (G : forall n i, 1 <= i <= h_num h -> (Z.to_nat i <= n)%nat -> forall y, h_data h i = Some y -> 0 <= cmp y x).
  { induction n as [|n IH]; intros k Hk Hn y Ey; [lia|]. destruct (Z.eq_dec k 1) as [->|N]; [assert (y = x) as -> by congruence; auto|].
    assert (Hq : 1 <= k / 2 <= h_num h) by lia. destruct (valid_at _ _ _ V Hq) as (z & Ez & _ & _).
    apply (Ctr y z x); [eapply (O k); eauto; lia|]. apply (IH (k / 2)); auto; lia. }
  intros y Ey. apply (G (Z.to_nat i) i); auto.
Qed.

(** ** the operations *)
Definition okheap (cmp : Z -> Z -> Z) (h : heap) (p : posmap) : Prop := valid h p /\ ordered cmp h.

Lemma in_heap_pos : forall h p x, valid h p -> in_heap h x -> 1 <= p x <= h_num h /\ h_data h (p x) = Some x.
Proof. intros h p x V (i & Hi & E). rewrite (valid_pos _ _ _ _ V Hi E). auto. Qed.

Lemma set_num_valid : forall h p z, valid h p -> 1 <= h_num h -> h_data h (h_num h) = Some z ->
  valid (set_num h (h_num h - 1)) (upd p z 0) /\ (forall x, in_heap (set_num h (h_num h - 1)) x <-> in_heap h x /\ x <> z).
Proof.
  intros h p z V Hn E. pose proof V as (V1 & V2 & V3). split.
  - split; [cbn; lia|]. split; [cbn; lia|]. cbn [set_num h_num h_data]. intros i Hi. destruct (V3 i ltac:(lia)) as (x & Ex & Px).
    exists x. split; auto. rewrite upd_neq; auto. intros ->. assert (i = h_num h) by (apply (valid_inj h p i (h_num h) z V); auto; lia). lia.
  - intros x. unfold in_heap. cbn [set_num h_num h_data]. split.
    + intros (i & Hi & Ex). split; [exists i; split; [lia|auto]|]. intros ->. assert (i = h_num h) by (apply (valid_inj h p i (h_num h) z V); auto; lia). lia.
    + intros ((i & Hi & Ex) & Nx). exists i. split; auto. assert (i <> h_num h) by (intros ->; congruence). lia.
Qed.

Lemma heap_delmin_spec : forall cmp h p, preorder cmp -> okheap cmp h p -> 1 <= h_num h ->
  exists x h' p', h_data h 1 = Some x /\ heap_delmin cmp h p = Ok (h', p') /\ okheap cmp h' p' /\
    h_num h' = h_num h - 1 /\ p' x = 0 /\ (forall y, in_heap h' y <-> in_heap h y /\ y <> x) /\
    (forall y, ~ in_heap h y -> p' y = p y) /\ h_max h' = h_max h.
Proof.
  intros cmp h p C [V O] Hn. pose proof V as (V1 & V2 & V3). destruct (valid_at _ _ 1 V) as (x & Ex & Px & _); [lia|]. exists x.
  unfold heap_delmin. replace (h_num h =? 0) with false by lia.
  assert (G : exists h1 p1, (if h_num h >? 1 then heap_swap h p 1 (h_num h) else Ok (h, p)) = Ok (h1, p1) /\ valid h1 p1 /\ same h p h1 p1 /\
     h_data h1 (h_num h1) = Some x /\ (forall i, i <> 1 -> i <> h_num h -> h_data h1 i = h_data h i)).
  { destruct (h_num h >? 1) eqn:E.
    - destruct (valid_at _ _ (h_num h) V) as (z & Ez & Pz & _); [lia|].
      destruct (swap_spec h p 1 (h_num h) x z V) as (p1 & -> & V' & S'); auto; try lia.
      eexists _, _. split; [reflexivity|]. split; [auto|]. split; [auto|]. split; [cbn [swapped h_num]; apply (sw_b h 1 (h_num h))|]. intros. rewrite sw_o; auto.
    - exists h, p. split; [auto|]. split; [auto|]. split; [apply same_refl|]. split; [replace (h_num h) with 1 by lia; auto|auto]. }
  destruct G as (h1 & p1 & -> & W1 & S1 & Ez & Hd). cbn [rbind]. pose proof S1 as (A1 & A2 & A3 & A4 & A5).
  rewrite (helem_ok h1 (h_num h1) x) by (auto; lia). cbn [rbind].
  destruct (set_num_valid h1 p1 x W1) as [W2 I2]; [lia|auto|].
  destruct (bubble_down_spec cmp C (heap_fuel (set_num h1 (h_num h1 - 1))) (set_num h1 (h_num h1 - 1)) (upd p1 x 0) 1) as (h' & p' & E & V' & O' & (B1 & B2 & B3 & B4 & B5)); auto; try lia.
  - unfold heap_fuel. lia.
  - unfold heap_fuel. lia.
  - cbn [set_num h_num h_data]. intros i Hi Ni a b Ha Hb. cbn [set_num h_data] in Ha, Hb. rewrite Hd in Ha by lia. rewrite Hd in Hb by lia. eapply (O i); eauto. lia.
  - exists h', p'. split; [auto|]. split; [auto|]. split; [split; auto|]. cbn [set_num h_num h_max] in *. split; [lia|].
    split; [rewrite B5, upd_eq; auto; rewrite I2; tauto|]. split; [intros y; rewrite B4, I2, A4; tauto|]. split; [|lia].
    intros y Hy. rewrite B5; [|rewrite I2, A4; tauto]. rewrite upd_neq; auto. intros ->. apply Hy. exists 1. split; [lia|auto].
Qed.

Lemma heap_insert_spec : forall cmp h p e, preorder cmp -> okheap cmp h p -> ~ in_heap h e -> 0 < h_max h -> h_max h < 2 ^ 30 ->
  exists h' p', heap_insert true cmp h p e = Ok (true, h', p') /\ okheap cmp h' p' /\
    h_num h' = h_num h + 1 /\ (forall y, in_heap h' y <-> y = e \/ in_heap h y) /\
    (forall y, y <> e -> ~ in_heap h y -> p' y = p y) /\ h_max h <= h_max h' <= Z.max (h_max h) (2 * h_num h).
Proof.
  intros cmp h p e C [V O] He Hm Hmax. pose proof V as (V1 & V2 & V3). unfold heap_insert. cbv zeta.
  replace (_ && (h_max h * HEAP_INCREASE_STEP >? INT_MAX)) with false by (unfold HEAP_INCREASE_STEP, INT_MAX; lia).
  cbn [negb]. rewrite andb_false_r.
  set (h0 := if h_num h =? h_max h then heap_resize true h (h_max h * HEAP_INCREASE_STEP) else h).
  assert (G : h_num h0 = h_num h /\ h_slots h0 = h_max h0 + 1 /\ h_num h < h_max h0 /\ (forall i, 1 <= i <= h_num h -> h_data h0 i = h_data h i) /\
              h_max h <= h_max h0 <= Z.max (h_max h) (2 * h_num h)).
  { unfold h0, HEAP_INCREASE_STEP. destruct (h_num h =? h_max h) eqn:E; cbn [heap_resize h_num h_slots h_max h_data].
    - repeat split; auto; try lia. intros i Hi. destruct (i <? _) eqn:E2; auto; lia.
    - repeat split; auto; lia. }
  clearbody h0. destruct G as (G1 & G2 & G3 & G4 & G5).
  rewrite hset_ok by (cbn [set_num h_slots h_num]; lia). cbn [rbind set_num h_num h_max h_slots h_data].
  set (h1 := mkheap (h_num h0 + 1) (h_max h0) (h_slots h0) (upd (h_data h0) (h_num h0 + 1) (Some e))).
  assert (I1 : forall y, in_heap h1 y <-> y = e \/ in_heap h y).
  { intros y. unfold in_heap, h1. cbn [h_num h_data]. split.
    - intros (i & Hi & Ey). destruct (Z.eq_dec i (h_num h0 + 1)) as [->|N]; [upds; left; congruence|right; exists i]. rewrite upd_neq in Ey by auto. rewrite G4 in Ey by lia. split; [lia|auto].
    - intros [->|(i & Hi & Ey)]; [exists (h_num h0 + 1); upds; split; [lia|auto]|exists i]. rewrite upd_neq by lia. rewrite G4 by lia. split; [lia|auto]. }
  assert (V' : valid h1 (upd p e (h_num h0 + 1))).
  { unfold h1. split; [cbn; lia|]. split; [cbn; lia|]. cbn [h_num h_data]. intros i Hi. destruct (Z.eq_dec i (h_num h0 + 1)) as [->|N]; [exists e; upds; auto|].
    destruct (V3 i ltac:(lia)) as (x & Ex & Px). exists x. rewrite upd_neq by auto. rewrite G4 by lia. split; [auto|]. rewrite upd_neq; auto. intros ->. apply He. exists i. split; [lia|auto]. }
  destruct (bubble_up_spec cmp C (heap_fuel h1) h1 (upd p e (h_num h0 + 1)) (h_num h0 + 1)) as (h' & p' & E & V2' & O' & (B1 & B2 & B3 & B4 & B5)); auto.
  - cbn [h1 h_num]. lia.
  - unfold heap_fuel. cbn [h1 h_num]. lia.
  - cbn [h1 h_num]. intros i Hi Ni a b Ha Hb. cbn [h1 h_data] in Ha, Hb. rewrite upd_neq in Ha, Hb by lia. rewrite G4 in Ha, Hb by lia. eapply (O i); eauto. lia.
  - cbn [h1 h_num]. intros. lia.
  - exists h', p'. cbn [h1 h_num] in E. rewrite E. cbn [rbind]. split; [auto|]. split; [split; auto|]. cbn [h1 h_num h_max] in *. split; [lia|].
    split; [intros y; rewrite B4; auto|]. split; [|lia]. intros y Ny Hy. rewrite B5; [apply upd_neq; auto|]. rewrite I1. tauto.
Qed.

(** [cmp0] is the order before the element (or its key) at [pos] changed *)
Lemma heap_replace_spec : forall cmp cmp0 h p pos x e, preorder cmp -> preorder cmp0 -> okheap cmp0 h p -> 1 <= pos <= h_num h ->
  h_data h pos = Some x -> (e = x \/ ~ in_heap h e) ->
  (forall a b, in_heap h a -> in_heap h b -> a <> x -> b <> x -> cmp a b = cmp0 a b) ->
  exists h' p', heap_replace cmp h p pos e = Ok (h', p') /\ okheap cmp h' p' /\
    h_num h' = h_num h /\ h_max h' = h_max h /\ (forall y, in_heap h' y <-> y = e \/ (in_heap h y /\ y <> x)) /\
    (forall y, y <> e -> ~ (in_heap h y /\ y <> x) -> p' y = p y).
Proof.
  intros cmp cmp0 h p pos x e C C0 [V O] Hp Ex He Hc. pose proof V as (V1 & V2 & V3). unfold heap_replace.
  rewrite hset_ok by lia. cbn [rbind].
  set (h1 := mkheap (h_num h) (h_max h) (h_slots h) (upd (h_data h) pos (Some e))).
  assert (I1 : forall y, in_heap h1 y <-> y = e \/ (in_heap h y /\ y <> x)).
  { intros y. unfold in_heap, h1. cbn [h_num h_data]. split.
    - intros (i & Hi & Ey). destruct (Z.eq_dec i pos) as [->|N]; [upds; left; congruence|right]. rewrite upd_neq in Ey by auto. split; [eauto|]. intros ->. apply N. eapply valid_inj; eauto.
    - intros [->|[(i & Hi & Ey) Nx]]; [exists pos; upds; split; [lia|auto]|exists i]. assert (i <> pos) by (intros ->; congruence). rewrite upd_neq by lia. auto. }
  assert (V' : valid h1 (upd p e pos)).
  { unfold h1. split; [cbn; lia|]. split; [cbn; lia|]. cbn [h_num h_data]. intros i Hi. destruct (Z.eq_dec i pos) as [->|N]; [exists e; upds; auto|].
    destruct (V3 i ltac:(lia)) as (w & Ew & Pw). exists w. rewrite upd_neq by auto. split; [auto|]. rewrite upd_neq; auto. intros ->.
    destruct He as [->|He]; [apply N; eapply valid_inj; eauto|]. apply He. exists i. split; [lia|auto]. }
  assert (HD : forall i, i <> pos -> h_data h1 i = h_data h i) by (intros; cbn [h1 h_data]; apply upd_neq; auto).
  assert (Hnx : forall i w, 1 <= i <= h_num h -> i <> pos -> h_data h i = Some w -> in_heap h w /\ w <> x).
  { intros i w Hi N Ew. split; [exists i; auto|]. intros ->. apply N. apply (valid_inj h p i pos x V); auto. }
  (* pairs away from pos *)
  assert (HO : forall i, 2 <= i <= h_num h -> i <> pos -> i / 2 <> pos -> ok_pair cmp h1 i).
  { intros i Hi N1 N2 a b Ha Hb. rewrite HD in Ha, Hb by auto. destruct (Hnx i a) as [? ?]; auto; [lia|]. destruct (Hnx (i / 2) b) as [? ?]; auto; [lia|].
    rewrite Hc by auto. eapply (O i); eauto. }
  (* children of pos against its parent *)
  assert (HG : forall c a b, 2 <= c <= h_num h -> c / 2 = pos -> 2 <= pos -> h_data h c = Some a -> h_data h (pos / 2) = Some b -> 0 <= cmp a b).
  { intros c a b Hcc E2 Hp2 Ha Hb. destruct (Hnx c a) as [? ?]; auto; try lia. destruct (Hnx (pos / 2) b) as [? ?]; auto; try lia. rewrite Hc by auto.
    destruct C0 as [_ Ctr0]. apply (Ctr0 a x b); [eapply (O c); eauto; rewrite E2; auto|eapply (O pos); eauto; lia]. }
  assert (Hh : helem h1 (pos / 2) = helem h (pos / 2) \/ pos = 1) by (destruct (Z.eq_dec pos 1); [auto|left; unfold helem; rewrite HD by lia; auto]).
  assert (R : forall h' p', valid h' p' -> ordered cmp h' -> same h1 (upd p e pos) h' p' ->
    okheap cmp h' p' /\ h_num h' = h_num h /\ h_max h' = h_max h /\ (forall y, in_heap h' y <-> y = e \/ (in_heap h y /\ y <> x)) /\
    (forall y, y <> e -> ~ (in_heap h y /\ y <> x) -> p' y = p y)).
  { intros h' p' W1 W2 (B1 & B2 & B3 & B4 & B5). split; [split; auto|]. split; [auto|]. split; [auto|]. split; [intros y; rewrite B4, I1; tauto|].
    intros y Ny Hy. rewrite B5; [apply upd_neq; auto|]. rewrite I1. tauto. }
  assert (DOWN : (pos = 1 \/ exists y, h_data h (pos / 2) = Some y /\ cmp y e < 0) ->
    exists h' p', heap_bubble_down (heap_fuel h1) cmp h1 (upd p e pos) pos = Ok (h', p') /\ valid h' p' /\ ordered cmp h' /\ same h1 (upd p e pos) h' p').
  { intros Hd. apply bubble_down_spec; auto; try (unfold heap_fuel; cbn [h1 h_num]; lia).
    - cbn [h1 h_num]. intros i Hi N. destruct (Z.eq_dec i pos) as [->|N2]; [|apply HO; auto]. intros a b Ha Hb.
      destruct Hd as [->|(y & Ey & Hy)]; [lia|]. cbn [h1 h_data] in Ha. upds. rewrite HD in Hb by auto. injection Ha as <-. assert (b = y) as -> by congruence. destruct C as [Cas _]. apply Cas. auto.
    - cbn [h1 h_num]. intros c a b Hcc E2 Hp2 Ha Hb. rewrite HD in Ha, Hb by lia. eapply HG; eauto. }
  destruct (pos =? 1) eqn:Ep; cbn [rbind].
  - destruct DOWN as (h' & p' & E & W1 & W2 & W3); [left; lia|]. exists h', p'. split; [auto|]. apply R; auto.
  - destruct Hh as [Hh|?]; [|lia]. rewrite Hh. destruct (valid_at _ _ (pos / 2) V) as (y & Ey & Py & ->); [lia|]. cbn [rbind].
    destruct (cmp y e <? 0) eqn:Ec.
    + destruct DOWN as (h' & p' & E & W1 & W2 & W3); [right; exists y; split; [auto|lia]|]. exists h', p'. split; [auto|]. apply R; auto.
    + destruct (bubble_up_spec cmp C (heap_fuel h1) h1 (upd p e pos) pos) as (h' & p' & E & W1 & W2 & W3); auto.
      * unfold heap_fuel. cbn [h1 h_num]. lia.
      * cbn [h1 h_num]. intros i Hi N. destruct (Z.eq_dec (i / 2) pos) as [E3|N3]; [|apply HO; auto]. intros a b Ha Hb.
        rewrite HD in Ha by auto. rewrite E3 in Hb. cbn [h1 h_data] in Hb. upds. injection Hb as <-. destruct C as [_ Ctr].
        apply (Ctr a y e); [|lia]. eapply HG; eauto. lia.
      * cbn [h1 h_num]. intros c a b Hcc E2 Hp2 Ha Hb. rewrite HD in Ha, Hb by lia. eapply HG; eauto.
      * exists h', p'. split; [auto|]. apply R; auto.
Qed.

Lemma heap_delete_spec : forall cmp h p e x, preorder cmp -> okheap cmp h p -> 1 <= e <= h_num h -> h_data h e = Some x ->
  exists h' p', heap_delete true cmp h p e = Ok (h', p') /\ okheap cmp h' p' /\
    h_num h' = h_num h - 1 /\ p' x = 0 /\ (forall y, in_heap h' y <-> in_heap h y /\ y <> x) /\
    (forall y, ~ in_heap h y -> p' y = p y) /\ (h_max h' = h_max h \/ 512 <= h_max h' <= h_max h).
Proof.
  intros cmp h p e x C [V O] He Ex. pose proof V as (V1 & V2 & V3). unfold heap_delete.
  destruct (valid_at _ _ (h_num h) V) as (z & Ez & Pz & _); [lia|].
  assert (G : exists h1 p1, heap_swap h p e (h_num h) = Ok (h1, p1) /\ valid h1 p1 /\ same h p h1 p1 /\
     h_data h1 (h_num h1) = Some x /\ h_data h1 e = Some z /\ (forall i, i <> e -> i <> h_num h -> h_data h1 i = h_data h i)).
  { destruct (Z.eq_dec e (h_num h)) as [->|N].
    - exists h, p. unfold heap_swap. rewrite Z.eqb_refl. split; [auto|]. split; [auto|]. split; [apply same_refl|]. split; [auto|]. split; [congruence|auto].
    - destruct (swap_spec h p e (h_num h) x z V) as (p1 & -> & V' & S'); auto; try lia.
      eexists _, _. split; [reflexivity|]. split; [auto|]. split; [auto|]. split; [cbn [swapped h_num]; apply (sw_b h e (h_num h))|]. split; [apply sw_a; auto|]. intros. rewrite sw_o; auto. }
  destruct G as (h1 & p1 & -> & W1 & S1 & Ex1 & Ez1 & Hd). cbn [rbind]. pose proof S1 as (A1 & A2 & A3 & A4 & A5).
  rewrite (helem_ok h1 (h_num h1) x) by (auto; lia). cbn [rbind]. cbv zeta.
  destruct (set_num_valid h1 p1 x W1) as [W2 I2]; [lia|auto|].
  set (h2 := set_num h1 (h_num h1 - 1)) in *. set (p2 := upd p1 x 0) in *.
  assert (N2 : h_num h2 = h_num h - 1) by (cbn [h2 set_num h_num]; lia).
  assert (D2 : forall i, h_data h2 i = h_data h1 i) by reflexivity.
  assert (M2 : h_max h2 = h_max h /\ h_slots h2 = h_slots h) by (cbn [h2 set_num h_max h_slots]; lia). destruct M2 as [M2 L2].
  clearbody h2.
  rewrite (helem_ok h2 e z) by (rewrite ?D2; auto; lia). cbn [rbind].
  rewrite (helem_ok h2 (h_num h2 + 1) x) by (rewrite ?D2; auto; try lia; rewrite N2; replace (h_num h - 1 + 1) with (h_num h1) by lia; auto). cbn [rbind].
  assert (HO : forall i, 2 <= i <= h_num h2 -> i <> e -> i / 2 <> e -> ok_pair cmp h2 i).
  { intros i Hi Na Nb a b Ha Hb. rewrite D2, Hd in Ha, Hb by lia. eapply (O i); eauto. lia. }
  assert (HC : forall c a, 2 <= c <= h_num h2 -> c / 2 = e -> h_data h2 c = Some a -> 0 <= cmp a x).
  { intros c a Hc E Ha. rewrite D2, Hd in Ha by lia. eapply (O c); eauto; [lia|]. rewrite E. auto. }
  assert (HP : forall b, 2 <= e -> h_data h2 (e / 2) = Some b -> 0 <= cmp x b).
  { intros b Hb Eb. rewrite D2, Hd in Eb by lia. eapply (O e); eauto. lia. }
  assert (HG : forall c a b, 2 <= c <= h_num h2 -> c / 2 = e -> 2 <= e -> h_data h2 c = Some a -> h_data h2 (e / 2) = Some b -> 0 <= cmp a b).
  { intros c a b Hc E Hb Ea Eb. destruct C as [_ Ctr]. apply (Ctr a x b); eauto. }
  assert (G : exists h' p', (if cmp z x <? 0 then heap_bubble_up (heap_fuel h2) cmp h2 p2 e else heap_bubble_down (heap_fuel h2) cmp h2 p2 e) = Ok (h', p') /\
     valid h' p' /\ ordered cmp h' /\ same h2 p2 h' p').
  { destruct (cmp z x <? 0) eqn:Ec.
    - assert (z <> x). { intros ->. destruct C as [Cas _]. specialize (Cas x x). lia. }
      assert (e <> h_num h) by congruence.
      apply bubble_up_spec; auto; try lia; [unfold heap_fuel; lia|].
      intros i Hi Ni. destruct (Z.eq_dec (i / 2) e) as [E3|N3]; [|apply HO; auto]. intros a b Ha Hb. rewrite E3 in Hb. rewrite D2 in Hb. assert (b = z) as -> by congruence.
      destruct C as [Cas Ctr]. apply (Ctr a x z); [eapply HC; eauto|]. apply Cas. lia.
    - apply bubble_down_spec; auto; try lia; try (unfold heap_fuel; lia).
      intros i Hi Ni. destruct (Z.eq_dec i e) as [->|N3]; [|apply HO; auto]. intros a b Ha Hb. rewrite D2 in Ha. assert (a = z) as -> by congruence.
      destruct C as [Cas Ctr]. apply (Ctr z x b); [lia|]. apply HP; auto. lia. }
  destruct G as (h3 & p3 & -> & V3' & O3 & (B1 & B2 & B3 & B4 & B5)). cbn [rbind].
  assert (R : p3 x = 0 /\ (forall y, in_heap h3 y <-> in_heap h y /\ y <> x) /\ (forall y, ~ in_heap h y -> p3 y = p y)).
  { split; [rewrite B5 by (rewrite I2; tauto); apply upd_eq|]. split; [intros y; rewrite B4, I2, A4; tauto|].
    intros y Hy. rewrite B5; [|rewrite I2, A4; tauto]. unfold p2. rewrite upd_neq; auto. intros ->. apply Hy. exists e. auto. }
  destruct R as (R1 & R2 & R3).
  destruct ((h_num h3 >? INITIAL_HEAP_SIZE) && (h_num h3 <? h_max h3 / HEAP_DECREASE_THRESHOLD)) eqn:Es.
  - unfold INITIAL_HEAP_SIZE, HEAP_DECREASE_THRESHOLD in Es. unfold HEAP_INCREASE_STEP. eexists _, _. split; [reflexivity|].
    destruct V3' as (Y1 & Y2 & Y3). set (m := h_max h3 / 2) in *.
    assert (HDD : forall i, 1 <= i <= h_num h3 -> h_data (heap_resize true h3 m) i = h_data h3 i).
    { intros i Hi. cbn [heap_resize h_data]. destruct (i <? _) eqn:E; auto. lia. }
    split; [split|].
    + split; [cbn; lia|]. split; [cbn; lia|]. intros i Hi. rewrite HDD by (cbn in Hi; lia). apply Y3. cbn in Hi. lia.
    + intros i Hi a b Ha Hb. cbn [heap_resize h_num] in Hi. rewrite HDD in Ha, Hb by lia. eapply (O3 i); eauto.
    + cbn [heap_resize h_num h_max]. split; [lia|]. split; [auto|]. split; [|split; [auto|right; lia]]. intros y. rewrite <- R2. unfold in_heap. cbn [heap_resize h_num].
      split; intros (i & Hi & Ei); exists i; (split; [auto|]); rewrite HDD in * by lia; auto.
  - eexists _, _. split; [reflexivity|]. split; [split; auto|]. split; [lia|]. split; [auto|]. split; [auto|]. split; [auto|]. left; lia.
Qed.
