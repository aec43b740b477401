(** Proofs about the trie: nibbles of keys and bitmaps. *)
From Verif Require Import Base TrieModel TrieSpec.
From Coq Require Import Sorted.

(** *** nibbles *)
Definition nib (k : list Z) (i : Z) : Z :=
  match zget k (i / 2) with
  | None => 0
  | Some b => 1 + (if Z.odd i then b mod 16 else b / 16)
  end.
Definition bitof (d : Z) : Z := 2 ^ (d + 2).

Lemma nib_range : forall k i, bytes k -> 0 <= nib k i <= 16.
Proof.
  intros k i B. unfold nib. destruct (zget k (i / 2)) as [b|] eqn:E; [|lia]. apply zget_byte in E; auto. unfold byte in E.
  destruct (Z.odd i); lia.
Qed.
Lemma keybit_nib : forall k i, bytes k -> keybit i k = bitof (nib k i).
Proof.
  intros k i B. unfold keybit, nib, bitof, BMP_NOBYTE, TSHIFT_BMP. rewrite Z.shiftr_div_pow2 by lia. change (2 ^ 1) with 2. cbv zeta.
  destruct (zget k (i / 2)) as [b|] eqn:E; [|destruct (i / 2 >=? zlen k); reflexivity]. pose proof (zget_some _ _ _ E). replace (i / 2 >=? zlen k) with false by lia. apply zget_byte in E; auto. unfold byte in E.
  rewrite Z.shiftl_1_l. f_equal. change 15 with (Z.ones 4). rewrite Z.land_ones by lia. rewrite Z.shiftr_div_pow2 by lia. change (2 ^ 4) with 16.
  destruct (Z.odd i); lia.
Qed.
Lemma nib_cons : forall b k i, 2 <= i -> nib (b :: k) i = nib k (i - 2).
Proof.
  intros b k i H. unfold nib. rewrite zget_cons by lia. replace ((i - 2) / 2) with (i / 2 - 1) by lia.
  destruct (zget k (i / 2 - 1)); [|reflexivity]. replace (Z.odd (i - 2)) with (Z.odd i); [reflexivity|].
  rewrite Z.odd_sub. destruct (Z.odd i); reflexivity.
Qed.
Lemma nib_cons0 : forall b k, nib (b :: k) 0 = 1 + b / 16.
Proof. reflexivity. Qed.
Lemma nib_cons1 : forall b k, nib (b :: k) 1 = 1 + b mod 16.
Proof. reflexivity. Qed.
Lemma nib_nil : forall i, nib [] i = 0.
Proof. intros. unfold nib, zget. destruct (i / 2 <? 0); [reflexivity|]. destruct (Z.to_nat (i / 2)); reflexivity. Qed.

(** keys that agree on all nibbles are equal *)
Definition agree (n : Z) (a b : list Z) : Prop := forall j, 0 <= j < n -> nib a j = nib b j.
Lemma agree_refl : forall n a, agree n a a.
Proof. red; auto. Qed.
Lemma agree_sym : forall n a b, agree n a b -> agree n b a.
Proof. unfold agree; intros; symmetry; auto. Qed.
Lemma agree_trans : forall n a b c, agree n a b -> agree n b c -> agree n a c.
Proof. unfold agree; intros. rewrite H by auto. auto. Qed.
Lemma agree_le : forall n m a b, m <= n -> agree n a b -> agree m a b.
Proof. unfold agree; intros. apply H0; lia. Qed.

Lemma agree_tail : forall n x y a b, agree n (x :: a) (y :: b) -> agree (n - 2) a b.
Proof. intros n x y a b H j J. specialize (H (j + 2)). rewrite !nib_cons in H by lia. replace (j + 2 - 2) with j in H by lia. apply H; lia. Qed.
Lemma agree_head : forall n x y a b, byte x -> byte y -> 2 <= n -> agree n (x :: a) (y :: b) -> x = y.
Proof.
  intros n x y a b Bx By Hn H. pose proof (H 0 ltac:(lia)) as H0. pose proof (H 1 ltac:(lia)) as H1.
  rewrite !nib_cons0 in H0. rewrite !nib_cons1 in H1. unfold byte in *. lia.
Qed.

(** two keys that both end at nibble i and agree before it are equal *)
Lemma nib0_eq : forall a b i, bytes a -> bytes b -> 0 <= i -> nib a i = 0 -> nib b i = 0 -> agree i a b -> a = b.
Proof.
  induction a as [|x a IH]; intros b i Ba Bb Hi Ha Hb G.
  - destruct b as [|y b]; [reflexivity|]. exfalso. apply bytes_cons in Bb. destruct Bb as [By Bb]. unfold byte in By.
    destruct (Z.eq_dec i 0) as [->|]; [rewrite nib_cons0 in Hb; lia|].
    specialize (G 0 ltac:(lia)). rewrite nib_cons0, nib_nil in G. lia.
  - apply bytes_cons in Ba. destruct Ba as [Bx Ba]. unfold byte in Bx.
    assert (2 <= i).
    { destruct (Z.eq_dec i 0) as [->|]; [rewrite nib_cons0 in Ha; lia|]. destruct (Z.eq_dec i 1) as [->|]; [rewrite nib_cons1 in Ha; lia|]. lia. }
    destruct b as [|y b].
    + specialize (G 0 ltac:(lia)). rewrite nib_cons0, nib_nil in G. lia.
    + apply bytes_cons in Bb. destruct Bb as [By Bb]. pose proof (agree_head _ _ _ _ _ Bx By H G) as ->. f_equal.
      rewrite nib_cons in Ha, Hb by lia. apply IH with (i := i - 2); auto; try lia. eapply agree_tail; eauto.
Qed.

(** the order of keys is the order of their nibbles *)
Definition nlt (a b : list Z) : Prop := exists j, 0 <= j /\ agree j a b /\ nib a j < nib b j.
Lemma nlt_klt : forall a b, bytes a -> bytes b -> nlt a b -> klt a b.
Proof.
  induction a as [|x a IH]; intros b Ba Bb (j & Hj & G & L).
  - destruct b as [|y b]; [rewrite !nib_nil in L; lia|]. exists []. left. exists y, b. auto.
  - apply bytes_cons in Ba. destruct Ba as [Bx Ba]. destruct b as [|y b].
    + rewrite nib_nil in L. pose proof (nib_range (x :: a) j ltac:(apply bytes_cons; auto)). lia.
    + apply bytes_cons in Bb. destruct Bb as [By Bb]. destruct (Z.eq_dec j 0) as [->|].
      { rewrite !nib_cons0 in L. exists []. right. exists x, y, a, b. split; [reflexivity|]. split; [reflexivity|]. lia. }
      destruct (Z.eq_dec j 1) as [->|].
      { rewrite !nib_cons1 in L. specialize (G 0 ltac:(lia)). rewrite !nib_cons0 in G. exists []. right. exists x, y, a, b. split; [reflexivity|]. split; [reflexivity|].
        unfold byte in *. lia. }
      pose proof (agree_head j _ _ _ _ Bx By ltac:(lia) G) as ->. rewrite !nib_cons in L by lia.
      destruct (IH b Ba Bb) as [p [(z & t & E1 & E2)|(u & v & s & t & E1 & E2 & E3)]].
      { exists (j - 2). split; [lia|]. split; [eapply agree_tail; eauto|auto]. }
      * exists (y :: p). left. exists z, t. subst. auto.
      * exists (y :: p). right. exists u, v, s, t. subst. auto.
Qed.
Lemma klt_irrefl : forall a, ~ klt a a.
Proof.
  intros a [p [(y & t & E1 & E2)|(x & y & s & t & E1 & E2 & L)]].
  - subst. apply (f_equal (@length Z)) in E2. rewrite app_length in E2. cbn in E2. lia.
  - rewrite E1 in E2. apply app_inv_head in E2. inversion E2. lia.
Qed.
Lemma klt_cons : forall x a y b, klt (x :: a) (y :: b) <-> x < y \/ x = y /\ klt a b.
Proof.
  intros x a y b. split.
  - intros [p [(z & t & E1 & E2)|(u & v & s & t & E1 & E2 & L)]].
    + subst p. cbn in E2. inversion E2; subst. right. split; auto. exists a. left. eauto.
    + destruct p as [|w p]; cbn in E1, E2; inversion E1; inversion E2; subst; [left; lia|]. right. split; [auto|]. exists p. right. exists u, v, s, t. auto.
  - intros [L|(-> & p & [(z & t & E1 & E2)|(u & v & s & t & E1 & E2 & L)])].
    + exists []. right. exists x, y, a, b. auto.
    + exists (y :: p). left. exists z, t. subst; auto.
    + exists (y :: p). right. exists u, v, s, t. subst; auto.
Qed.
Lemma klt_nil : forall b, klt [] b <-> b <> [].
Proof.
  intros b. split.
  - intros K ->. eapply klt_irrefl; eauto.
  - destruct b as [|y b]; [congruence|]. intros _. exists []. left. exists y, b. auto.
Qed.
Lemma klt_nil_r : forall a, ~ klt a [].
Proof.
  intros a [p [(y & t & E1 & E2)|(x & y & s & t & E1 & E2 & L)]]; destruct p; discriminate.
Qed.
Lemma klt_trans : forall a b c, klt a b -> klt b c -> klt a c.
Proof.
  induction a as [|x a IH]; intros [|y b] [|z c] H1 H2; try (apply klt_nil_r in H1; tauto); try (apply klt_nil_r in H2; tauto).
  - apply klt_nil. congruence.
  - rewrite klt_cons in *. destruct H1 as [|[-> H1]], H2 as [|[-> H2]]; [left; lia|auto|auto|]. right. split; [auto|]. eapply IH; eauto.
Qed.
Lemma klt_asym : forall a b, klt a b -> klt b a -> False.
Proof. intros. eapply klt_irrefl. eapply klt_trans; eauto. Qed.

(** the first difference *)
Lemma same_bytes_split : forall a b, exists p a' b', a = p ++ a' /\ b = p ++ b' /\ same_bytes a b = zlen p /\
  match a', b' with x :: _, y :: _ => x <> y | _, _ => True end.
Proof.
  induction a as [|x a IH]; intros b.
  - exists [], [], b. cbn. auto.
  - destruct b as [|y b]; [exists [], (x :: a), []; cbn; auto|]. cbn [same_bytes]. destruct (x =? y) eqn:E.
    + assert (x = y) by lia. subst y. destruct (IH b) as (p & a' & b' & -> & -> & L & D). exists (x :: p), a', b'.
      split; [reflexivity|]. split; [reflexivity|]. split; [rewrite zlen_cons; lia|exact D].
    + exists [], (x :: a), (y :: b). cbn. split; [auto|]. split; [auto|]. split; [auto|]. lia.
Qed.
Lemma nib_app_r : forall p a i, 2 * zlen p <= i -> nib (p ++ a) i = nib a (i - 2 * zlen p).
Proof.
  induction p as [|x p IH]; intros a i H.
  - rewrite zlen_nil. cbn [app]. f_equal. lia.
  - rewrite zlen_cons in *. pose proof (zlen_nonneg p). cbn [app]. rewrite nib_cons by lia. rewrite IH by lia. f_equal. lia.
Qed.
Lemma nib_app_l : forall p a i, 0 <= i < 2 * zlen p -> nib (p ++ a) i = nib p i.
Proof.
  intros p a i H. unfold nib. rewrite zget_app_l by lia. reflexivity.
Qed.
Lemma xor_high : forall x y, byte x -> byte y -> (Z.land (Z.lxor x y) 240 =? 0) = (x / 16 =? y / 16).
Proof.
  intros x y Bx By.
  assert (S : forallb (fun x => forallb (fun y => Bool.eqb (Z.land (Z.lxor x y) 240 =? 0) (x / 16 =? y / 16)) all_bytes) all_bytes = true) by (vm_compute; reflexivity).
  pose proof (byte_sweep _ S x Bx) as S1. cbv beta in S1. pose proof (byte_sweep _ S1 y By) as S2. cbv beta in S2. apply Bool.eqb_prop in S2. exact S2.
Qed.
Lemma diff_spec : forall a b, key_ok a -> key_ok b ->
  (a = b /\ diff_index a b = TMAX_INDEX) \/
  (a <> b /\ 0 <= diff_index a b < TMAX_INDEX /\ agree (diff_index a b) a b /\ nib a (diff_index a b) <> nib b (diff_index a b)).
Proof.
  intros a b [Ba La] [Bb Lb]. unfold diff_index. cbv zeta.
  destruct (same_bytes_split a b) as (p & a' & b' & Ea & Eb & -> & D). pose proof (zlen_nonneg p) as P. pose proof (zlen_nonneg a') as PA. pose proof (zlen_nonneg b') as PB.
  assert (T : TMAX_INDEX = 8589934592) by reflexivity. rewrite Z.shiftl_mul_pow2 by lia. change (2 ^ 1) with 2.
  assert (LA : zlen a = zlen p + zlen a') by (rewrite Ea; apply zlen_app). assert (LB : zlen b = zlen p + zlen b') by (rewrite Eb; apply zlen_app).
  change (2 ^ 31) with 2147483648 in *.
  assert (AG : agree (zlen p * 2) a b).
  { intros j J. rewrite Ea, Eb. rewrite !nib_app_l by lia. reflexivity. }
  destruct ((zlen p =? zlen a) && (zlen a =? zlen b)) eqn:E.
  - left. assert (zlen a' = 0 /\ zlen b' = 0) as [Za Zb] by lia. unfold zlen in Za, Zb. destruct a' as [|]; [|cbn in Za; lia]. destruct b' as [|]; [|cbn in Zb; lia].
    split; [congruence|reflexivity].
  - right. assert (NE : a <> b).
    { intros X. assert (Y : p ++ a' = p ++ b') by congruence. apply app_inv_head in Y. subst b'. destruct a' as [|x a']; [|congruence]. rewrite zlen_nil in *. lia. }
    split; [exact NE|].
    assert (GA : zget a (zlen p) = zget a' 0). { rewrite Ea. rewrite zget_app_r by lia. f_equal. lia. }
    assert (GB : zget b (zlen p) = zget b' 0). { rewrite Eb. rewrite zget_app_r by lia. f_equal. lia. }
    rewrite GA, GB.
    assert (Bp : bytes a' /\ bytes b'). { rewrite Ea in Ba. rewrite Eb in Bb. apply bytes_app in Ba. apply bytes_app in Bb. tauto. }
    destruct Bp as [Ba' Bb'].
    assert (NA : forall j, 0 <= j -> nib a (zlen p * 2 + j) = nib a' j). { intros. rewrite Ea. rewrite nib_app_r by lia. f_equal. lia. }
    assert (NB : forall j, 0 <= j -> nib b (zlen p * 2 + j) = nib b' j). { intros. rewrite Eb. rewrite nib_app_r by lia. f_equal. lia. }
    destruct a' as [|x a'], b' as [|y b']; try (rewrite ?zlen_nil, ?zlen_cons in *; lia).
    + cbn [zget Z.ltb Z.compare Z.to_nat nth_error]. rewrite zlen_cons in *. apply bytes_cons in Bb'. destruct Bb' as [By _]. unfold byte in By.
      split; [lia|]. split; [exact AG|]. specialize (NA 0). specialize (NB 0). rewrite Z.add_0_r in *. rewrite NA, NB by lia. rewrite nib_nil, nib_cons0. lia.
    + replace (match zget (x :: a') 0, zget (@nil Z) 0 with Some k1, Some k2 => if Z.land (Z.lxor k1 k2) 240 =? 0 then zlen p * 2 + 1 else zlen p * 2 | _, _ => zlen p * 2 end) with (zlen p * 2) by reflexivity.
      rewrite zlen_cons in *. apply bytes_cons in Ba'. destruct Ba' as [Bx _]. unfold byte in Bx.
      split; [lia|]. split; [exact AG|]. specialize (NA 0). specialize (NB 0). rewrite Z.add_0_r in *. rewrite NA, NB by lia. rewrite nib_nil, nib_cons0. lia.
    + rewrite !zget_0. apply bytes_cons in Ba'. destruct Ba' as [Bx _]. apply bytes_cons in Bb'. destruct Bb' as [By _]. rewrite xor_high by auto. rewrite zlen_cons in *.
      pose proof (NA 0 ltac:(lia)) as NA0. pose proof (NB 0 ltac:(lia)) as NB0. rewrite Z.add_0_r in *. rewrite nib_cons0 in NA0, NB0.
      pose proof (NA 1 ltac:(lia)) as NA1. pose proof (NB 1 ltac:(lia)) as NB1. rewrite nib_cons1 in NA1, NB1. unfold byte in *.
      destruct (x / 16 =? y / 16) eqn:F.
      * split; [lia|]. split; [|lia]. intros j J. destruct (Z.eq_dec j (zlen p * 2)) as [->|]; [lia|]. apply AG; lia.
      * split; [lia|]. split; [exact AG|lia].
Qed.

(** key_cmp decides equality *)
Lemma memcmp_eq : forall a b n, bytes a -> bytes b -> n = Nat.min (length a) (length b) -> memcmp a b n = 0 -> exists t, a = b ++ t \/ b = a ++ t.
Proof.
  induction a as [|x a IH]; intros b n Ba Bb Hn H; [exists b; auto|]. destruct b as [|y b]; [exists (x :: a); auto|].
  cbn [length Nat.min] in Hn. subst n. cbn [memcmp] in H. apply bytes_cons in Ba. apply bytes_cons in Bb. destruct (x =? y) eqn:E; [|lia].
  destruct (IH b _ (proj2 Ba) (proj2 Bb) eq_refl H) as (t & [->| ->]); exists t; assert (x = y) by lia; subst; auto.
Qed.
Lemma memcmp_refl : forall a n, memcmp a a n = 0.
Proof. induction a; intros [|n]; cbn; auto. rewrite Z.eqb_refl. auto. Qed.
Lemma key_cmp_eq : forall a b, bytes a -> bytes b -> (key_cmp a b =? 0) = true <-> a = b.
Proof.
  intros a b Ba Bb. unfold key_cmp. cbv zeta. split.
  - intros H. destruct (memcmp a b (Nat.min (length a) (length b)) =? 0) eqn:E; cbn [negb] in H; [|lia].
    destruct (zlen a =? zlen b) eqn:F; [|destruct (zlen a <? zlen b); discriminate].
    destruct (memcmp_eq a b _ Ba Bb eq_refl ltac:(lia)) as (t & [X|X]); apply (f_equal (@zlen Z)) in X as Y; rewrite zlen_app in Y; unfold zlen in Y, F; destruct t; cbn in Y; try lia; rewrite app_nil_r in X; auto.
  - intros ->. rewrite memcmp_refl. cbn. rewrite Z.eqb_refl. reflexivity.
Qed.

(** *** bitmaps *)
Definition D17 : list Z := map Z.of_nat (seq 0 17).
Definition okbmp (b : Z) : Prop := forall i, Z.testbit b i = true -> 2 <= i <= 18.
Definition digits (b : Z) : list Z := filter (fun d => Z.testbit b (d + 2)) D17.
Definition low (b d : Z) : list Z := filter (fun x => x <? d) (digits b).
Definition high (b d : Z) : list Z := filter (fun x => d <? x) (digits b).

Lemma D17_In : forall d, In d D17 <-> 0 <= d <= 16.
Proof.
  intros d. unfold D17. rewrite in_map_iff. split.
  - intros (n & <- & H). apply in_seq in H. lia.
  - intros H. exists (Z.to_nat d). split; [lia|]. apply in_seq. lia.
Qed.
Lemma D17_sorted : StronglySorted Z.lt D17.
Proof. unfold D17. cbn. repeat constructor; lia. Qed.
Lemma filter_sorted : forall (f : Z -> bool) l, StronglySorted Z.lt l -> StronglySorted Z.lt (filter f l).
Proof.
  induction l as [|x l IH]; intros H; cbn; [constructor|]. inversion H; subst. destruct (f x); [|auto].
  constructor; [auto|]. rewrite Forall_forall in *. intros y Hy. apply filter_In in Hy. apply H3. tauto.
Qed.
Lemma digits_sorted : forall b, StronglySorted Z.lt (digits b).
Proof. intros. apply filter_sorted, D17_sorted. Qed.
Lemma digits_In : forall b d, In d (digits b) <-> 0 <= d <= 16 /\ Z.testbit b (d + 2) = true.
Proof. intros. unfold digits. rewrite filter_In, D17_In. tauto. Qed.
Lemma filter_none : forall {A} (f : A -> bool) l, (forall x, In x l -> f x = false) -> filter f l = [].
Proof. induction l as [|x l IH]; intros H; cbn; auto. rewrite H by (cbn; auto). apply IH. intros; apply H; cbn; auto. Qed.
Lemma filter_all : forall {A} (f : A -> bool) l, (forall x, In x l -> f x = true) -> filter f l = l.
Proof. induction l as [|x l IH]; intros H; cbn; auto. rewrite H by (cbn; auto). f_equal. apply IH. intros; apply H; cbn; auto. Qed.
Lemma sorted_split : forall l d, StronglySorted Z.lt l ->
  l = filter (fun x => x <? d) l ++ filter (fun x => x =? d) l ++ filter (fun x => d <? x) l.
Proof.
  induction l as [|x l IH]; intros d H; [reflexivity|]. inversion H; subst. rewrite Forall_forall in H3. cbn [filter].
  destruct (x <? d) eqn:E1.
  - replace (x =? d) with false by lia. replace (d <? x) with false by lia. cbn [app]. f_equal. auto.
  - rewrite (filter_none (fun x => x <? d) l) by (intros y Hy; apply H3 in Hy; lia). cbn [app].
    destruct (x =? d) eqn:E2.
    + replace (d <? x) with false by lia. rewrite (filter_none (fun x => x =? d) l) by (intros y Hy; apply H3 in Hy; lia).
      cbn [app]. f_equal. symmetry. apply filter_all. intros y Hy. apply H3 in Hy. lia.
    + replace (d <? x) with true by lia. rewrite (filter_none (fun x => x =? d) l) by (intros y Hy; apply H3 in Hy; lia).
      cbn [app]. f_equal. symmetry. apply filter_all. intros y Hy. apply H3 in Hy. lia.
Qed.
Lemma filter_filter : forall {A} (f g : A -> bool) l, filter f (filter g l) = filter (fun x => g x && f x) l.
Proof. induction l as [|x l IH]; cbn; auto. destruct (g x) eqn:E; cbn; [destruct (f x); rewrite IH; reflexivity|auto]. Qed.
Lemma filter_eq_D17 : forall (f : Z -> bool) d, 0 <= d <= 16 -> filter (fun x => f x && (x =? d)) D17 = if f d then [d] else [].
Proof.
  intros f d H. assert (G : forall l, NoDup l -> filter (fun x => f x && (x =? d)) l = if existsb (fun x => x =? d) l then (if f d then [d] else []) else []).
  { induction l as [|x l IH]; intros N; cbn; auto. inversion N; subst. rewrite IH by auto. destruct (x =? d) eqn:E.
    - assert (x = d) by lia. subst x. assert (X : existsb (fun x => x =? d) l = false).
      { apply Bool.not_true_iff_false. intros X. apply existsb_exists in X. destruct X as (y & Hy & Ey). apply H2. replace d with y by lia. auto. }
      rewrite X. destruct (f d); reflexivity.
    - rewrite Bool.andb_false_r. reflexivity. }
  rewrite G.
  - replace (existsb (fun x => x =? d) D17) with true; [reflexivity|]. symmetry. apply existsb_exists. exists d. split; [apply D17_In; auto|lia].
  - unfold D17. cbn. repeat (constructor; [cbn; lia|]). constructor.
Qed.
Lemma digits_split : forall b d, 0 <= d <= 16 ->
  digits b = low b d ++ (if Z.testbit b (d + 2) then [d] else []) ++ high b d.
Proof.
  intros b d H. rewrite (sorted_split (digits b) d) at 1 by apply digits_sorted. unfold low, high. f_equal. f_equal.
  unfold digits. rewrite filter_filter. apply (filter_eq_D17 (fun d => Z.testbit b (d + 2))). auto.
Qed.
Lemma bitof_bits : forall d i, 0 <= d -> Z.testbit (bitof d) i = (i =? d + 2).
Proof. intros d i H. unfold bitof. destruct (i =? d + 2) eqn:E; [replace i with (d + 2) by lia; apply Z.pow2_bits_true; lia|apply Z.pow2_bits_false; lia]. Qed.
Lemma low_lor : forall b d, 0 <= d <= 16 -> digits (Z.lor b (bitof d)) = low b d ++ d :: high b d.
Proof.
  intros b d H. rewrite (digits_split _ d H). rewrite Z.lor_spec, bitof_bits, Z.eqb_refl, Bool.orb_true_r by lia.
  unfold low, high, digits. rewrite !filter_filter. cbn [app]. f_equal; [|f_equal].
  - apply filter_ext. intros x. rewrite Z.lor_spec, bitof_bits by lia. destruct (x <? d) eqn:E; [|rewrite !Bool.andb_false_r; reflexivity].
    replace (x + 2 =? d + 2) with false by lia. rewrite Bool.orb_false_r. reflexivity.
  - apply filter_ext. intros x. rewrite Z.lor_spec, bitof_bits by lia. destruct (d <? x) eqn:E; [|rewrite !Bool.andb_false_r; reflexivity].
    replace (x + 2 =? d + 2) with false by lia. rewrite Bool.orb_false_r. reflexivity.
Qed.
Lemma low_clear : forall b d, 0 <= d <= 16 -> digits (Z.land b (Z.lnot (bitof d))) = low b d ++ high b d.
Proof.
  intros b d H. rewrite (digits_split _ d H). rewrite Z.land_spec, Z.lnot_spec, bitof_bits, Z.eqb_refl, Bool.andb_false_r by lia.
  unfold low, high, digits. rewrite !filter_filter. cbn [app]. f_equal.
  - apply filter_ext_in. intros x Hx. apply D17_In in Hx. rewrite Z.land_spec, Z.lnot_spec, bitof_bits by lia. destruct (x <? d) eqn:E; [|rewrite !Bool.andb_false_r; reflexivity].
    replace (x + 2 =? d + 2) with false by lia. rewrite Bool.andb_true_r. reflexivity.
  - apply filter_ext_in. intros x Hx. apply D17_In in Hx. rewrite Z.land_spec, Z.lnot_spec, bitof_bits by lia. destruct (d <? x) eqn:E; [|rewrite !Bool.andb_false_r; reflexivity].
    replace (x + 2 =? d + 2) with false by lia. rewrite Bool.andb_true_r. reflexivity.
Qed.
Lemma okbmp_lor : forall b d, 0 <= d <= 16 -> okbmp b -> okbmp (Z.lor b (bitof d)).
Proof. intros b d H K i E. rewrite Z.lor_spec, bitof_bits in E by lia. destruct (Z.testbit b i) eqn:F; [auto|]. cbn in E. lia. Qed.
Lemma okbmp_clear : forall b d, okbmp b -> okbmp (Z.land b (Z.lnot (bitof d))).
Proof. intros b d K i E. rewrite Z.land_spec in E. apply K. destruct (Z.testbit b i); auto. Qed.
Lemma okbmp_bitof : forall d, 0 <= d <= 16 -> okbmp (bitof d).
Proof. intros d H i E. rewrite bitof_bits in E by lia. lia. Qed.
Lemma okbmp_mask : forall b, okbmp b -> (Z.land b (Z.lnot TMASK_BMP) =? 0) = true.
Proof.
  intros b K. apply Z.eqb_eq. apply Z.bits_inj'. intros i Hi. rewrite Z.land_spec, Z.lnot_spec, Z.bits_0 by lia.
  destruct (Z.testbit b i) eqn:E; [|reflexivity]. apply K in E. cbn [andb]. unfold TMASK_BMP, TWIDTH_BMP, TSHIFT_BMP.
  rewrite Z.shiftl_spec by lia. rewrite Z.shiftl_1_l. change (2 ^ 17 - 1) with (Z.ones 17). rewrite Z.ones_spec_low by lia. reflexivity.
Qed.
Lemma popcount_digits : forall b, okbmp b -> popcount b = zlen (digits b).
Proof.
  intros b K. unfold popcount, digits. replace (map Z.of_nat (seq 0 32)) with ([0; 1] ++ map (fun d => d + 2) D17 ++ [19; 20; 21; 22; 23; 24; 25; 26; 27; 28; 29; 30; 31]) by reflexivity.
  rewrite !filter_app. rewrite (filter_none (Z.testbit b) [0; 1]), (filter_none (Z.testbit b) [19; 20; 21; 22; 23; 24; 25; 26; 27; 28; 29; 30; 31]).
  - rewrite app_nil_r. cbn [app]. unfold zlen. f_equal. generalize D17. induction l as [|x l IH]; cbn; auto. destruct (Z.testbit b (x + 2)); cbn; auto.
  - intros x Hx. apply Bool.not_true_iff_false. intros E. apply K in E. cbn in Hx. lia.
  - intros x Hx. apply Bool.not_true_iff_false. intros E. apply K in E. cbn in Hx. lia.
Qed.
Lemma popcount_bitof : forall d, 0 <= d <= 16 -> (popcount (bitof d) =? 1) = true.
Proof.
  intros d H. rewrite popcount_digits by (apply okbmp_bitof; auto). replace (bitof d) with (Z.lor 0 (bitof d)) by apply Z.lor_0_l.
  rewrite low_lor by auto. unfold low, high. replace (digits 0) with (@nil Z); [reflexivity|]. unfold digits. symmetry. apply filter_none. intros; apply Z.bits_0.
Qed.
Lemma popcount_below : forall b d, okbmp b -> 0 <= d <= 16 -> popcount (Z.land b (bitof d - 1)) = zlen (low b d).
Proof.
  intros b d K H. assert (O : okbmp (Z.land b (bitof d - 1))). { intros i E. rewrite Z.land_spec in E. apply K. destruct (Z.testbit b i); auto. }
  rewrite popcount_digits by auto. unfold low, digits. rewrite filter_filter. unfold zlen. f_equal. f_equal. apply filter_ext_in. intros x Hx. apply D17_In in Hx.
  rewrite Z.land_spec. f_equal. unfold bitof. rewrite Z.sub_1_r. rewrite <- Z.ones_equiv. rewrite Z.testbit_ones by lia. lia.
Qed.
Lemma has_bit : forall b d, 0 <= d -> negb (Z.land b (bitof d) =? 0) = Z.testbit b (d + 2).
Proof.
  intros b d H. destruct (Z.testbit b (d + 2)) eqn:E.
  - apply Bool.negb_true_iff. apply Z.eqb_neq. intros X. apply (f_equal (fun z => Z.testbit z (d + 2))) in X. rewrite Z.land_spec, E, bitof_bits, Z.bits_0, Z.eqb_refl in X by lia. discriminate.
  - apply Bool.negb_false_iff. apply Z.eqb_eq. apply Z.bits_inj'. intros i Hi. rewrite Z.land_spec, bitof_bits, Z.bits_0 by lia.
    destruct (i =? d + 2) eqn:F; [replace i with (d + 2) by lia; rewrite E; reflexivity|apply Bool.andb_false_r].
Qed.
Lemma filter_zlen : forall {A} (f : A -> bool) l, zlen (filter f l) <= zlen l.
Proof. induction l as [|x l IH]; cbn [filter]; [lia|]. rewrite zlen_cons. destruct (f x); rewrite ?zlen_cons; lia. Qed.
Lemma digits_17 : forall b, zlen (digits b) <= 17.
Proof. intros b. unfold digits. etransitivity; [apply filter_zlen|]. unfold D17, zlen. rewrite map_length, seq_length. lia. Qed.
