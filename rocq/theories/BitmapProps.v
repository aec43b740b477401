(** C32: the NSEC type bitmap codec. *)
From Verif Require Import Base WireModel WireProofs BitmapModel.
From Coq Require Import Sorting.Sorted.

(** ** Specification: RFC 4034, section 4.1.2. A bitmap is a list of window blocks: the window number, the length
    of the bitmap (1 to 32), and the bitmap; bit j (from the most significant) of octet k of the block for window n
    stands for type 256 n + 8 k + j. *)
Definition block : Type := (Z * list Z)%type.
Definition encode (bs : list block) : list Z := flat_map (fun b => fst b :: zlen (snd b) :: snd b) bs.
Definition block_ok (b : block) : Prop := byte (fst b) /\ bytes (snd b) /\ 1 <= zlen (snd b) <= 32.
Definition block_has (b : block) (t : Z) : Prop := exists x, t / 256 = fst b /\ zget (snd b) (t mod 256 / 8) = Some x /\ Z.testbit x (7 - t mod 8) = true.
(** windows ascending, no trailing zero octets, no empty blocks *)
Definition canonical (bs : list block) : Prop := Forall block_ok bs /\ StronglySorted Z.lt (map fst bs) /\ Forall (fun b => last (snd b) 0 <> 0) bs.

(** ** The state holds a set of types *)
Definition byte_of (P : Z -> Prop) (w k x : Z) : Prop := byte x /\ forall j, 0 <= j < 8 -> (Z.testbit x (7 - j) = true <-> P (256 * w + 8 * k + j)).
Definition win_inv (P : Z -> Prop) (i : Z) (w : window) : Prop :=
  zlen (win_data w) = 32 /\ 0 <= win_used w <= 32 /\ (forall k x, zget (win_data w) k = Some x -> byte_of P i k x) /\
  (forall k, win_used w <= k < 32 -> zget (win_data w) k = Some 0) /\ (0 < win_used w -> exists x, zget (win_data w) (win_used w - 1) = Some x /\ x <> 0).
Definition bm_inv (P : Z -> Prop) (b : bitmap) : Prop :=
  zlen (bm_windows b) = 256 /\ 0 <= bm_used b <= 256 /\ (forall i w, zget (bm_windows b) i = Some w -> win_inv P i w) /\
  (forall i w, bm_used b <= i -> zget (bm_windows b) i = Some w -> win_used w = 0).

Lemma zget_repeat : forall {A} (x : A) n i, 0 <= i < Z.of_nat n -> zget (repeat x n) i = Some x.
Proof. intros. destruct (zget_in_range (repeat x n) i) as [y E]; [unfold zlen; rewrite repeat_length; lia|]. rewrite E. apply zget_In in E. apply repeat_spec in E. congruence. Qed.
Lemma bm_inv_ext : forall P Q b, (forall t, P t <-> Q t) -> bm_inv P b -> bm_inv Q b.
Proof.
  intros P Q b H (A & B & C & D). split; auto. split; auto. split; auto. intros i w E. destruct (C i w E) as (W1 & W2 & W3 & W4 & W5). split; auto. split; auto. split; auto.
  intros k x Ex. destruct (W3 k x Ex) as [Y1 Y2]. split; auto. intros j Hj. rewrite <- H. auto.
Qed.
Lemma new_inv : bm_inv (fun _ => False) bitmap_new.
Proof.
  split; [reflexivity|]. split; [cbn [bitmap_new bm_used]; lia|]. split.
  - intros i w E. pose proof (zget_In _ _ _ E) as I. apply repeat_spec in I. subst w. cbn [win_data win_used]. split; [reflexivity|]. split; [cbn [win_used]; lia|]. split; [|split; [|cbn [win_used]; lia]].
    + intros k x Ex. apply zget_In in Ex. apply (repeat_spec 32) in Ex. subst x. split; [unfold byte; lia|]. intros j Hj. rewrite Z.bits_0. split; [discriminate|tauto].
    + intros k Hk. apply zget_repeat. cbn [win_used] in Hk. lia.
  - intros i w _ E. apply zget_In in E. apply repeat_spec in E. subst w. reflexivity.
Qed.
Definition mask_ok (x j : Z) : bool := (0 <=? Z.lor x (Z.shiftr 128 j)) && (Z.lor x (Z.shiftr 128 j) <? 256) && negb (Z.lor x (Z.shiftr 128 j) =? 0) &&
  forallb (fun i => Bool.eqb (Z.testbit (Z.lor x (Z.shiftr 128 j)) (7 - i)) (Z.testbit x (7 - i) || (i =? j))) [0; 1; 2; 3; 4; 5; 6; 7].
Lemma mask_sweep : forallb (fun j => forallb (fun x => mask_ok x j) all_bytes) [0; 1; 2; 3; 4; 5; 6; 7] = true.
Proof. vm_compute. reflexivity. Qed.
Lemma lt8 : forall j, 0 <= j < 8 -> In j [0; 1; 2; 3; 4; 5; 6; 7].
Proof. intros. assert (j = 0 \/ j = 1 \/ j = 2 \/ j = 3 \/ j = 4 \/ j = 5 \/ j = 6 \/ j = 7) by lia. cbn [In]. intuition. Qed.
Lemma set_bit : forall x j, byte x -> 0 <= j < 8 -> let y := u8 (Z.lor x (Z.shiftr 128 j)) in byte y /\ y <> 0 /\ forall i, 0 <= i < 8 -> Z.testbit y (7 - i) = Z.testbit x (7 - i) || (i =? j).
Proof.
  intros x j Hx Hj y. pose proof mask_sweep as M. rewrite forallb_forall in M. specialize (M j (lt8 j Hj)). cbv beta in M. pose proof (byte_sweep _ M x Hx) as K. unfold mask_ok in K.
  apply andb_true_iff in K. destruct K as [K K4]. apply andb_true_iff in K. destruct K as [K K3]. apply andb_true_iff in K. destruct K as [K1 K2]. assert (E : y = Z.lor x (Z.shiftr 128 j)) by (unfold y, u8; rewrite Z.mod_small; lia).
  rewrite E. split; [unfold byte; lia|]. split; [lia|]. intros i Hi. rewrite forallb_forall in K4. apply eqb_prop. apply K4. apply lt8. auto.
Qed.
Lemma add_inv : forall P b t, bm_inv P b -> 0 <= t < 65536 -> exists b', bitmap_add b t = Ok b' /\ bm_inv (fun x => P x \/ x = t) b'.
Proof.
  intros P b t (A & B & C & D) Ht. unfold bitmap_add. cbv zeta. assert (HW : 0 <= t / 256 < 256) by lia. assert (HK : 0 <= t mod 256 / 8 < 32) by lia. assert (HJ : 0 <= t mod 256 mod 8 < 8) by lia.
  destruct (zget_in_range (bm_windows b) (t / 256)) as [w EW]; [lia|]. rewrite EW. destruct (C _ _ EW) as (W1 & W2 & W3 & W4 & W5). destruct (zget_in_range (win_data w) (t mod 256 / 8)) as [x EX]; [lia|]. rewrite EX.
  destruct (W3 _ _ EX) as [X1 X2]. destruct (set_bit x (t mod 256 mod 8) X1 HJ) as (Y1 & Y2 & Y3). set (y := u8 (Z.lor x (Z.shiftr 128 (t mod 256 mod 8)))) in *.
  eexists. split; [reflexivity|]. cbn [bm_inv bm_used bm_windows]. split; [cbn [bm_windows]; rewrite zlen_zset by lia; auto|]. split; [cbn [bm_used]; destruct (bm_used b <=? t / 256); lia|]. cbn [bm_windows bm_used]. split.
  - intros i w' E. rewrite zget_zset in E by lia. destruct (i =? t / 256) eqn:EI.
    + assert (i = t / 256) by lia. subst i. injection E as <-. unfold win_inv. cbn [win_data win_used]. split; [rewrite zlen_zset by lia; auto|]. unfold u8 in *.
      assert (UU : 0 <= (if win_used w <=? t mod 256 / 8 then (t mod 256 / 8 + 1) mod 2 ^ 8 else win_used w) <= 32) by (destruct (win_used w <=? t mod 256 / 8); lia). split; auto. split; [|split].
      * intros k z Ez. rewrite zget_zset in Ez by lia. destruct (k =? t mod 256 / 8) eqn:EK.
        { injection Ez as <-. split; auto. intros j Hj. rewrite Y3 by auto. rewrite orb_true_iff. assert (k = t mod 256 / 8) by lia. subst k. rewrite X2 by auto. split; intros [H|H]; auto; right; lia. }
        { destruct (W3 k z Ez) as [Z1 Z2]. split; auto. intros j Hj. rewrite Z2 by auto. split; [auto|]. intros [H|H]; auto. exfalso. assert (0 <= k < 32) by (apply zget_some in Ez; lia). lia. }
      * intros k Hk. rewrite zget_zset by lia. destruct (k =? t mod 256 / 8) eqn:EK; [exfalso; destruct (win_used w <=? t mod 256 / 8) eqn:EU; lia|]. apply W4. destruct (win_used w <=? t mod 256 / 8) eqn:EU; lia.
      * intros _. rewrite zget_zset by lia. destruct (win_used w <=? t mod 256 / 8) eqn:EU.
        { exists y. replace ((t mod 256 / 8 + 1) mod 2 ^ 8 - 1 =? t mod 256 / 8) with true by lia. auto. }
        { destruct (win_used w - 1 =? t mod 256 / 8); [exists y; auto|]. apply W5. lia. }
    + destruct (C i w' E) as (V1 & V2 & V3 & V4 & V5). split; auto. split; auto. split; auto. intros k z Ez. destruct (V3 k z Ez) as [Z1 Z2]. split; auto. intros j Hj. rewrite Z2 by auto. split; auto. intros [H|H]; auto. exfalso.
      apply zget_some in E. assert (0 <= k < 32) by (apply zget_some in Ez; lia). lia.
  - intros i w' Hi E. rewrite zget_zset in E by lia. destruct (i =? t / 256) eqn:EI; [destruct (bm_used b <=? t / 256) eqn:EU; lia|]. apply (D i); auto. destruct (bm_used b <=? t / 256) eqn:EU; lia.
Qed.
Fixpoint add_all (b : bitmap) (ts : list Z) : res bitmap := match ts with [] => Ok b | t :: ts => let* b := bitmap_add b t in add_all b ts end.
Lemma add_all_inv : forall ts P b, bm_inv P b -> Forall (fun t => 0 <= t < 65536) ts -> exists b', add_all b ts = Ok b' /\ bm_inv (fun x => P x \/ In x ts) b'.
Proof.
  induction ts as [|t ts IH]; intros P b HI HT; cbn [add_all].
  - exists b. split; auto. eapply bm_inv_ext; [|eauto]. intros. cbn [In]. tauto.
  - inversion HT; subst. destruct (add_inv P b t HI H1) as (b1 & E1 & I1). rewrite E1. cbn [rbind]. destruct (IH _ b1 I1 H2) as (b2 & E2 & I2). exists b2. split; auto. eapply bm_inv_ext; [|eauto]. intros x. cbn [In]. intuition.
Qed.

(** ** Writing *)
Definition blocks (b : bitmap) (i : Z) (n : nat) : list block :=
  flat_map (fun i => match zget (bm_windows b) i with Some w => if win_used w =? 0 then [] else [(i, zfirstn (win_used w) (win_data w))] | None => [] end) (map (fun k => i + Z.of_nat k) (seq 0 n)).
Lemma blocks_S : forall b i n, blocks b i (S n) = match zget (bm_windows b) i with Some w => if win_used w =? 0 then [] else [(i, zfirstn (win_used w) (win_data w))] | None => [] end ++ blocks b (i + 1) n.
Proof.
  intros. unfold blocks. cbn [seq map flat_map]. rewrite Z.add_0_r. f_equal. rewrite <- seq_shift, map_map. f_equal. apply map_ext. intros. lia.
Qed.
Lemma size_blocks : forall n P b i r, bm_inv P b -> 0 <= i -> i + Z.of_nat n <= 256 -> size_loop n (bm_windows b) i r = Ok (r + zlen (encode (blocks b i n))).
Proof.
  induction n; intros P b i r HI Hi Hn; cbn [size_loop].
  - cbn. f_equal. lia.
  - rewrite blocks_S. destruct (zget_in_range (bm_windows b) i) as [w E]; [destruct HI; lia|]. rewrite E. pose proof HI as (A & B & C & D). destruct (C _ _ E) as (W1 & W2 & _).
    destruct (win_used w =? 0) eqn:EU.
    + rewrite (IHn P) by (auto; lia). reflexivity.
    + rewrite (IHn P) by (auto; lia). unfold encode. rewrite flat_map_app, zlen_app. cbn [flat_map fst snd]. rewrite app_nil_r, !zlen_cons, zlen_zfirstn by lia. f_equal. lia.
Qed.
Lemma mem_write_app : forall a x y c, zlen y = zlen x -> mem_write (a ++ x ++ c) (zlen a) y = Ok (a ++ y ++ c).
Proof.
  intros. rewrite mem_write_ok. 2: { apply zlen_nonneg. } 2: { rewrite !zlen_app. pose proof (zlen_nonneg c). lia. }
  f_equal. rewrite zfirstn_app_exact. f_equal. f_equal. rewrite H, <- zlen_app, app_assoc. apply zskipn_app_exact.
Qed.
Lemma zlen_split : forall {A} (l : list A) n m, zlen l = n + m -> 0 <= n -> 0 <= m -> exists a b, l = a ++ b /\ zlen a = n /\ zlen b = m.
Proof. intros. exists (zfirstn n l), (zskipn n l). rewrite zfirstn_skipn, zlen_zfirstn, zlen_zskipn by lia. split; auto. lia. Qed.
Lemma write_blocks : forall n P b i pre rest, bm_inv P b -> 0 <= i -> i + Z.of_nat n <= 256 -> zlen rest = zlen (encode (blocks b i n)) ->
  write_loop n (bm_windows b) i (pre ++ rest) (zlen pre) = Ok (pre ++ encode (blocks b i n)).
Proof.
  induction n; intros P b i pre rest HI Hi Hn HR; cbn [write_loop].
  - cbn in HR. destruct rest; [reflexivity|rewrite zlen_cons in HR; pose proof (zlen_nonneg rest); lia].
  - rewrite blocks_S in *. destruct (zget_in_range (bm_windows b) i) as [w E]; [destruct HI; lia|]. rewrite E in *. pose proof HI as (A & B & C & D). destruct (C _ _ E) as (W1 & W2 & _). cbv zeta.
    destruct (win_used w =? 0) eqn:EU.
    + apply (IHn P); auto; lia.
    + unfold encode in HR. rewrite flat_map_app, zlen_app in HR. cbn [flat_map fst snd] in HR. rewrite app_nil_r, !zlen_cons, zlen_zfirstn in HR by lia. fold (encode (blocks b (i + 1) n)) in HR. pose proof (zlen_nonneg (encode (blocks b (i + 1) n))).
      destruct (zlen_split rest 1 (1 + (win_used w + zlen (encode (blocks b (i + 1) n))))) as (r1 & q1 & -> & L1 & M1); [lia|lia|lia|]. destruct (zlen_split q1 1 (win_used w + zlen (encode (blocks b (i + 1) n)))) as (r2 & q2 & -> & L2 & M2); [lia|lia|lia|].
      destruct (zlen_split q2 (win_used w) (zlen (encode (blocks b (i + 1) n)))) as (r3 & q3 & -> & L3 & M3); [lia|lia|lia|].
      rewrite mem_write_app by (rewrite zlen_cons, zlen_nil; lia). cbn [rbind]. replace (pre ++ [u8 i] ++ r2 ++ r3 ++ q3) with ((pre ++ [u8 i]) ++ r2 ++ r3 ++ q3) by (rewrite <- app_assoc; auto).
      replace (zlen pre + 1) with (zlen (pre ++ [u8 i])) by (rewrite zlen_app, zlen_cons, zlen_nil; lia). rewrite mem_write_app by (rewrite zlen_cons, zlen_nil; lia). cbn [rbind].
      rewrite mem_read_ok by lia. cbn [rbind]. change (zskipn 0 (win_data w)) with (win_data w). set (p2 := (pre ++ [u8 i]) ++ [u8 (win_used w)]).
      replace ((pre ++ [u8 i]) ++ [u8 (win_used w)] ++ r3 ++ q3) with (p2 ++ r3 ++ q3) by (unfold p2; rewrite <- !app_assoc; auto). replace (zlen (pre ++ [u8 i]) + 1) with (zlen p2) by (unfold p2; rewrite (zlen_app (pre ++ _)), zlen_cons, zlen_nil; lia).
      rewrite mem_write_app by (rewrite zlen_zfirstn; lia). cbn [rbind]. replace (zlen p2 + win_used w) with (zlen (p2 ++ zfirstn (win_used w) (win_data w))) by (rewrite zlen_app, zlen_zfirstn; lia).
      rewrite app_assoc. rewrite (IHn P) by (auto; lia). f_equal. unfold p2. unfold encode at 2. rewrite flat_map_app. fold (encode (blocks b (i + 1) n)). cbn [flat_map fst snd]. rewrite app_nil_r, zlen_zfirstn by lia.
      replace (u8 i) with i by (unfold u8; rewrite Z.mod_small; lia). replace (u8 (win_used w)) with (win_used w) by (unfold u8; rewrite Z.mod_small; lia). rewrite <- !app_assoc. reflexivity.
Qed.
Lemma last_zget : forall (l : list Z) x, 0 < zlen l -> zget l (zlen l - 1) = Some x -> last l 0 = x.
Proof.
  intros l x HL H. destruct (exists_last (l := l)) as (q & y & ->). { intros ->. rewrite zlen_nil in HL. lia. }
  rewrite last_last. rewrite zlen_app, zlen_cons, zlen_nil in H. rewrite zget_app_r in H by lia. replace (zlen q + (1 + 0) - 1 - zlen q) with 0 in H by lia. injection H. auto.
Qed.
Lemma blocks_in : forall n b i x, In x (blocks b i n) <-> exists w, i <= fst x < i + Z.of_nat n /\ zget (bm_windows b) (fst x) = Some w /\ win_used w <> 0 /\ snd x = zfirstn (win_used w) (win_data w).
Proof.
  intros n b i [k d]. unfold blocks. rewrite in_flat_map. cbn [fst snd]. split.
  - intros (q & Hq & Hx). apply in_map_iff in Hq. destruct Hq as (m & <- & Hm). apply in_seq in Hm. destruct (zget (bm_windows b) (i + Z.of_nat m)) as [w|] eqn:E; [|contradiction]. destruct (win_used w =? 0) eqn:EU; [contradiction|]. destruct Hx as [Hx|[]]. injection Hx as <- <-.
    exists w. split; [lia|]. split; auto. split; [lia|auto].
  - intros (w & H1 & H2 & H3 & ->). exists k. split; [apply in_map_iff; exists (Z.to_nat (k - i)); split; [lia|apply in_seq; lia]|]. rewrite H2. replace (win_used w =? 0) with false by lia. left. auto.
Qed.
Lemma blocks_canonical : forall P b, bm_inv P b -> canonical (blocks b 0 (Z.to_nat (bm_used b))).
Proof.
  intros P b (A & B & C & D). split; [|split].
  - apply Forall_forall. intros [k d] Hx. apply blocks_in in Hx. destruct Hx as (w & H1 & H2 & H3 & H4). cbn [fst snd] in *. destruct (C _ _ H2) as (W1 & W2 & W3 & _). unfold block_ok. cbn [fst snd]. rewrite H4. split; [unfold byte; lia|]. split.
    + apply Forall_forall. intros y Hy. unfold zfirstn in Hy. assert (Hi : In y (win_data w)) by (rewrite <- (firstn_skipn (Z.to_nat (win_used w)) (win_data w)); apply in_or_app; auto). apply In_nth_error in Hi. destruct Hi as [m Hm].
      assert (E : zget (win_data w) (Z.of_nat m) = Some y) by (unfold zget; destruct (Z.of_nat m <? 0) eqn:E0; [lia|]; rewrite Nat2Z.id; auto). apply (W3 _ _ E).
    + rewrite zlen_zfirstn; lia.
  - generalize (Z.to_nat (bm_used b)) 0. clear. intros n. induction n; intros i; [constructor|]. rewrite blocks_S, map_app. destruct (zget (bm_windows b) i) as [w|]; [|apply IHn]. destruct (win_used w =? 0); [apply IHn|]. cbn [map app fst]. constructor; [apply IHn|].
    apply Forall_forall. intros k Hk. apply in_map_iff in Hk. destruct Hk as ([k' d] & <- & Hk). apply blocks_in in Hk. destruct Hk as (w' & H & _). cbn [fst] in *. lia.
  - apply Forall_forall. intros [k d] Hx. apply blocks_in in Hx. destruct Hx as (w & H1 & H2 & H3 & H4). cbn [fst snd] in *. destruct (C _ _ H2) as (W1 & W2 & W3 & W4 & W5). destruct W5 as (x & Ex & Nx); [lia|].
    assert (ZL : zlen d = win_used w) by (rewrite H4, zlen_zfirstn; lia). rewrite (last_zget d x); auto; [lia|]. rewrite ZL, H4. rewrite zget_zfirstn by lia. auto.
Qed.
Lemma blocks_has : forall P b, bm_inv P b -> (forall t, P t -> 0 <= t < 65536) -> forall t, (exists x, In x (blocks b 0 (Z.to_nat (bm_used b))) /\ block_has x t) <-> P t.
Proof.
  intros P b (A & B & C & D) HP t. split.
  - intros ([k d] & Hx & (y & E1 & E2 & E3)). apply blocks_in in Hx. destruct Hx as (w & H1 & H2 & H3 & H4). cbn [fst snd] in *. destruct (C _ _ H2) as (W1 & W2 & W3 & W4 & W5).
    assert (LT : t mod 256 / 8 < win_used w). { apply zget_some in E2. rewrite H4, zlen_zfirstn in E2 by lia. lia. } rewrite H4, zget_zfirstn in E2 by auto. destruct (W3 _ _ E2) as [Y1 Y2]. apply (Y2 (t mod 8)) in E3; [|lia]. replace (256 * k + 8 * (t mod 256 / 8) + t mod 8) with t in E3 by lia. auto.
  - intros Ht. pose proof (HP t Ht) as Rt. destruct (zget_in_range (bm_windows b) (t / 256)) as [w E]; [lia|]. destruct (C _ _ E) as (W1 & W2 & W3 & W4 & W5). destruct (zget_in_range (win_data w) (t mod 256 / 8)) as [y Ey]; [lia|]. destruct (W3 _ _ Ey) as [Y1 Y2].
    assert (TB : Z.testbit y (7 - t mod 8) = true). { apply Y2; [lia|]. replace (256 * (t / 256) + 8 * (t mod 256 / 8) + t mod 8) with t by lia. auto. }
    assert (NZ : y <> 0) by (intros ->; rewrite Z.bits_0 in TB; discriminate).
    assert (LT : t mod 256 / 8 < win_used w). { destruct (Z_lt_le_dec (t mod 256 / 8) (win_used w)); auto. rewrite W4 in Ey by lia. congruence. }
    assert (LU : t / 256 < bm_used b). { destruct (Z_lt_le_dec (t / 256) (bm_used b)); auto. rewrite (D (t / 256) w) in LT by auto. lia. }
    exists (t / 256, zfirstn (win_used w) (win_data w)). split; [apply blocks_in; exists w; cbn [fst snd]; split; [lia|]; split; auto; split; [lia|auto]|]. exists y. cbn [fst snd]. split; auto. split; auto. rewrite zget_zfirstn; auto.
Qed.

(** ** Lookup *)
Definition last_bit (x j : Z) : bool := Bool.eqb (negb (Z.land x (u8 (Z.shiftl 1 (7 - j))) =? 0)) (Z.testbit x (7 - j)).
Lemma last_bit_sweep : forallb (fun j => forallb (fun x => last_bit x j) all_bytes) [0; 1; 2; 3; 4; 5; 6; 7] = true.
Proof. vm_compute. reflexivity. Qed.
Lemma bit_mask_spec : forall x j, byte x -> 0 <= j < 8 -> negb (Z.land x (u8 (Z.shiftl 1 (7 - j))) =? 0) = Z.testbit x (7 - j).
Proof. intros x j Hx Hj. pose proof last_bit_sweep as M. rewrite forallb_forall in M. specialize (M j (lt8 j Hj)). cbv beta in M. pose proof (byte_sweep _ M x Hx) as K. apply eqb_prop. exact K. Qed.
Lemma type_parts : forall t, 0 <= t < 65536 -> u8 (Z.shiftr t 8) = t / 256 /\ Z.shiftr (Z.land t 255) 3 = t mod 256 / 8 /\ Z.land (Z.land t 255) 7 = t mod 8.
Proof.
  intros t Ht. rewrite !Z.shiftr_div_pow2 by lia. change (Z.land t 255) with (Z.land t (Z.ones 8)). rewrite Z.land_ones by lia. change (Z.land (t mod 2 ^ 8) 7) with (Z.land (t mod 2 ^ 8) (Z.ones 3)). rewrite Z.land_ones by lia.
  unfold u8. change (2 ^ 8) with 256. change (2 ^ 3) with 8. lia.
Qed.
Lemma encode_cons : forall b bs, encode (b :: bs) = fst b :: zlen (snd b) :: snd b ++ encode bs.
Proof. reflexivity. Qed.
Lemma contains_blocks : forall fuel bs pre hi idx mask, Forall block_ok bs -> zlen (encode bs) < Z.of_nat fuel -> 0 <= idx ->
  contains_loop fuel (pre ++ encode bs) (zlen (pre ++ encode bs)) hi idx mask (zlen pre) =
  Ok (match find (fun b => fst b =? hi) bs with Some b => match zget (snd b) idx with Some x => negb (Z.land x mask =? 0) | None => false end | None => false end).
Proof.
  induction fuel as [|fuel IH]; intros bs pre hi idx mask HB HF Hidx; [pose proof (zlen_nonneg (encode bs)); lia|]. cbn [contains_loop]. destruct bs as [|[n d] bs].
  - cbn [encode flat_map]. rewrite app_nil_r. replace (zlen pre + 3 <=? zlen pre) with false by lia. reflexivity.
  - inversion HB; subst. destruct H1 as (B1 & B2 & B3). cbn [fst snd] in *. rewrite encode_cons in *. cbn [fst snd] in *. rewrite !zlen_cons, zlen_app in HF. rewrite zlen_app, !zlen_cons, zlen_app. pose proof (zlen_nonneg (encode bs)). pose proof (zlen_nonneg pre).
    replace (zlen pre + 3 <=? zlen pre + (1 + (1 + (zlen d + zlen (encode bs))))) with true by lia. unfold bm_at at 1. rewrite zget_app_r by lia. rewrite Z.sub_diag. rewrite zget_0. cbn [rbind]. unfold bm_at at 1. rewrite zget_app_r by lia. replace (zlen pre + 1 - zlen pre) with 1 by lia. rewrite zget_cons by lia. change (1 - 1) with 0. rewrite zget_0. cbn [rbind]. cbv zeta.
    replace ((zlen d =? 0) || (zlen pre + 2 + zlen d >? zlen pre + (1 + (1 + (zlen d + zlen (encode bs)))))) with false by lia. cbn [find fst]. destruct (n =? hi) eqn:EN.
    + cbn [snd]. destruct (idx <? zlen d) eqn:EI.
      * unfold bm_at. rewrite zget_app_r by lia. replace (zlen pre + 2 + idx - zlen pre) with (idx + 1 + 1) by lia. rewrite !zget_cons by lia. replace (idx + 1 + 1 - 1 - 1) with idx by lia. rewrite zget_app_l by lia. destruct (zget_in_range d idx) as [x Ex]; [lia|]. rewrite Ex. reflexivity.
      * rewrite zget_none by lia. reflexivity.
    + specialize (IH bs (pre ++ n :: zlen d :: d) hi idx mask H2 ltac:(lia) Hidx). rewrite <- app_assoc in IH. cbn [app] in IH. rewrite zlen_app, !zlen_cons, zlen_app in IH. replace (zlen pre + 2 + zlen d) with (zlen pre + zlen (n :: zlen d :: d)) by (rewrite !zlen_cons; lia). rewrite <- IH. f_equal. rewrite !zlen_cons. rewrite zlen_app, !zlen_cons. reflexivity.
Qed.

(** Lookup is safe for every input, and for every list of well-formed blocks with different window numbers it
    answers whether the type's bit is set. *)
Theorem c32_contains : forall bs t, Forall block_ok bs -> NoDup (map fst bs) -> zlen (encode bs) < 65536 -> 0 <= t < 65536 ->
  exists r, bitmap_contains (encode bs) (zlen (encode bs)) t = Ok r /\ (r = true <-> exists b, In b bs /\ block_has b t).
Proof.
  intros bs t HB HN HL Ht. unfold bitmap_contains. destruct (zlen (encode bs) =? 0) eqn:E0.
  - exists false. split; auto. split; [discriminate|]. intros (b & Hb & _). destruct bs; [contradiction|]. rewrite encode_cons, !zlen_cons in E0. pose proof (zlen_nonneg (snd b0 ++ encode bs)). lia.
  - cbv zeta. destruct (type_parts t Ht) as (T1 & T2 & T3). rewrite T1, T2, T3. pose proof (contains_blocks (S (Z.to_nat (zlen (encode bs)))) bs [] (t / 256) (t mod 256 / 8) (u8 (Z.shiftl 1 (7 - t mod 8))) HB) as CB. cbn [app] in CB. change (zlen (@nil Z)) with 0 in CB. rewrite CB by lia. clear CB. eexists. split; [reflexivity|].
    destruct (find (fun b => fst b =? t / 256) bs) as [b|] eqn:EF.
    + apply find_some in EF. destruct EF as [Hb Eb]. assert (Ok_b : block_ok b) by (rewrite Forall_forall in HB; auto). destruct (zget (snd b) (t mod 256 / 8)) as [x|] eqn:Ex.
      * rewrite bit_mask_spec; [|eapply zget_byte; [|eauto]; apply Ok_b|lia]. split.
        { intros H. exists b. split; auto. exists x. split; [lia|auto]. }
        { intros (c & Hc & (y & Y1 & Y2 & Y3)). assert (c = b). { clear - HN Hb Hc Y1 Eb. assert (Efst : fst c = fst b) by lia. induction bs as [|a bs IH]; [contradiction|]. cbn [map] in HN. inversion HN; subst. destruct Hb as [->|Hb], Hc as [->|Hc]; auto; exfalso; [apply H1; rewrite <- Efst; apply in_map; auto|apply H1; rewrite Efst; apply in_map; auto]. }
          subst c. congruence. }
      * split; [discriminate|]. intros (c & Hc & (y & Y1 & Y2 & Y3)). assert (c = b). { clear - HN Hb Hc Y1 Eb. assert (Efst : fst c = fst b) by lia. induction bs as [|a bs IH]; [contradiction|]. cbn [map] in HN. inversion HN; subst. destruct Hb as [->|Hb], Hc as [->|Hc]; auto; exfalso; [apply H1; rewrite <- Efst; apply in_map; auto|apply H1; rewrite Efst; apply in_map; auto]. }
        subst c. congruence.
    + split; [discriminate|]. intros (b & Hb & (y & Y1 & _)). pose proof (find_none _ _ EF b Hb) as X. cbv beta in X. lia.
Qed.
Theorem c32_contains_safe : forall bm t, bytes bm -> zlen bm < 65536 -> 0 <= t < 65536 -> exists r, bitmap_contains bm (zlen bm) t = Ok r.
Proof.
  intros bm t HB HL Ht. unfold bitmap_contains. destruct (zlen bm =? 0); [eauto|]. cbv zeta. destruct (type_parts t Ht) as (T1 & T2 & T3). rewrite T1, T2, T3. generalize (u8 (Z.shiftl 1 (7 - t mod 8))). intros mask.
  assert (G : forall fuel pos, 0 <= pos <= zlen bm -> zlen bm - pos < Z.of_nat fuel -> exists r, contains_loop fuel bm (zlen bm) (t / 256) (t mod 256 / 8) mask pos = Ok r).
  { induction fuel as [|fuel IH]; intros pos Hp Hf; [lia|]. cbn [contains_loop]. destruct (pos + 3 <=? zlen bm) eqn:E; [|eauto].
    destruct (zget_in_range bm pos) as [x Ex]; [lia|]. destruct (zget_in_range bm (pos + 1)) as [y Ey]; [lia|]. unfold bm_at. rewrite Ex. cbn [rbind]. rewrite Ey. cbn [rbind]. cbv zeta.
    assert (byte y) by (eapply zget_byte; eauto). unfold byte in H. destruct ((y =? 0) || (pos + 2 + y >? zlen bm)) eqn:E1; [eauto|]. destruct (x =? t / 256).
    - destruct (t mod 256 / 8 <? y) eqn:E2; [|eauto]. destruct (zget_in_range bm (pos + 2 + t mod 256 / 8)) as [z Ez]; [lia|]. rewrite Ez. cbn [rbind]. eauto.
    - apply IH; lia. }
  apply G; pose proof (zlen_nonneg bm); lia.
Qed.

(** Building a bitmap from any list of types and writing it into a buffer of the announced size fills the buffer
    with the canonical encoding of exactly those types, and lookup in it finds exactly those types. *)
Theorem c32_build : forall ts out, Forall (fun t => 0 <= t < 65536) ts -> exists b n, add_all bitmap_new ts = Ok b /\ bitmap_size b = Ok n /\ n < 65536 /\
  (zlen out = n -> exists bs, bitmap_write b out = Ok (encode bs) /\ zlen (encode bs) = n /\ canonical bs /\
    (forall t, (exists x, In x bs /\ block_has x t) <-> In t ts) /\
    (forall t, 0 <= t < 65536 -> exists r, bitmap_contains (encode bs) n t = Ok r /\ (r = true <-> In t ts))).
Proof.
  intros ts out HT. destruct (add_all_inv ts (fun _ => False) bitmap_new new_inv HT) as (b & E & HI0). assert (HI : bm_inv (fun t => In t ts) b) by (eapply bm_inv_ext; [|eauto]; intros; cbv beta; tauto). clear HI0.
  exists b. set (bs := blocks b 0 (Z.to_nat (bm_used b))). exists (zlen (encode bs)). split; auto. pose proof HI as (A & B & C & D). split; [unfold bitmap_size; rewrite (size_blocks _ _ b 0 0 HI) by lia; reflexivity|].
  pose proof (blocks_canonical _ b HI) as (K1 & K2 & K3). fold bs in K1, K2, K3.
  assert (HL : zlen (encode bs) < 65536).
  { assert (G : forall n i, zlen (encode (blocks b i n)) <= 34 * Z.of_nat n). { induction n; intros i; [cbn; lia|]. rewrite blocks_S. unfold encode. rewrite flat_map_app, zlen_app. fold (encode (blocks b (i + 1) n)). specialize (IHn (i + 1)). destruct (zget (bm_windows b) i) as [w|] eqn:EW; [|cbn [flat_map]; rewrite zlen_nil; lia]. destruct (C _ _ EW) as (W1 & W2 & _).
      destruct (win_used w =? 0); [cbn [flat_map]; rewrite zlen_nil; lia|]. cbn [flat_map fst snd]. rewrite app_nil_r, !zlen_cons, zlen_zfirstn by lia. lia. }
    specialize (G (Z.to_nat (bm_used b)) 0). fold bs in G. lia. }
  split; auto. intros HO. exists bs. split; [exact (write_blocks (Z.to_nat (bm_used b)) _ b 0 [] out HI ltac:(lia) ltac:(lia) HO)|]. split; auto. split; [split; auto|].
  assert (HH : forall t, (exists x, In x bs /\ block_has x t) <-> In t ts) by (apply blocks_has; auto; intros t Ht; rewrite Forall_forall in HT; apply HT; auto).
  split; auto. intros t Ht. destruct (c32_contains bs t K1) as (r & Er & Hr); auto.
  - clear - K2. induction K2; constructor; auto. intros H1. rewrite Forall_forall in H. specialize (H _ H1). lia.
  - exists r. split; auto. rewrite Hr. apply HH.
Qed.
(** The encoding depends only on the set of types. *)
Theorem c32_set : forall ts1 ts2 b1 b2 n1 n2 o1 o2, Forall (fun t => 0 <= t < 65536) ts1 -> Forall (fun t => 0 <= t < 65536) ts2 -> (forall t, In t ts1 <-> In t ts2) ->
  add_all bitmap_new ts1 = Ok b1 -> add_all bitmap_new ts2 = Ok b2 -> bitmap_size b1 = Ok n1 -> bitmap_size b2 = Ok n2 -> zlen o1 = n1 -> zlen o2 = n2 -> bitmap_write b1 o1 = bitmap_write b2 o2.
Proof.
  intros ts1 ts2 b1 b2 n1 n2 o1 o2 H1 H2 HE E1 E2 S1 S2 L1 L2.
  destruct (add_all_inv ts1 (fun _ => False) bitmap_new new_inv H1) as (b1' & X1 & I1). destruct (add_all_inv ts2 (fun _ => False) bitmap_new new_inv H2) as (b2' & X2 & I2). assert (b1' = b1) by congruence. assert (b2' = b2) by congruence. subst b1' b2'. clear E1 E2 X1 X2.
  assert (J1 : bm_inv (fun t => In t ts1) b1) by (eapply bm_inv_ext; [|eauto]; intros; cbv beta; tauto). assert (J2 : bm_inv (fun t => In t ts1) b2) by (eapply bm_inv_ext; [|eauto]; intros; cbv beta; rewrite HE; tauto). clear I1 I2.
  destruct J1 as (A1 & B1 & C1 & D1). destruct J2 as (A2 & B2 & C2 & D2).
  assert (EW : bm_windows b1 = bm_windows b2).
  { apply zget_ext; [lia|]. intros i Hi. destruct (zget_in_range (bm_windows b1) i Hi) as [w1 W1]. destruct (zget_in_range (bm_windows b2) i) as [w2 W2]; [lia|]. rewrite W1, W2. f_equal.
    destruct (C1 _ _ W1) as (P1 & P2 & P3 & P4 & P5). destruct (C2 _ _ W2) as (Q1 & Q2 & Q3 & Q4 & Q5).
    assert (ED : win_data w1 = win_data w2).
    { apply zget_ext; [lia|]. intros k Hk. destruct (zget_in_range (win_data w1) k Hk) as [x X]. destruct (zget_in_range (win_data w2) k) as [y Y]; [lia|]. rewrite X, Y. f_equal. destruct (P3 _ _ X) as [BX TX]. destruct (Q3 _ _ Y) as [BY TY].
      apply Z.bits_inj'. intros j Hj. destruct (Z_lt_le_dec j 8).
      - specialize (TX (7 - j) ltac:(lia)). specialize (TY (7 - j) ltac:(lia)). replace (7 - (7 - j)) with j in TX, TY by lia. apply Bool.eq_true_iff_eq. rewrite TX, TY. tauto.
      - unfold byte in *. assert (x < 2 ^ j) by (apply Z.lt_le_trans with (2 ^ 8); [lia|apply Z.pow_le_mono_r; lia]). assert (y < 2 ^ j) by (apply Z.lt_le_trans with (2 ^ 8); [lia|apply Z.pow_le_mono_r; lia]).
        rewrite !Z.bits_above_log2; auto; try lia; destruct (Z.eq_dec x 0), (Z.eq_dec y 0); subst; cbn [Z.log2]; try lia; apply Z.log2_lt_pow2; lia. }
    destruct w1 as [u1 d1], w2 as [u2 d2]. cbn [win_data win_used] in *. subst d2. f_equal. destruct (Z.lt_trichotomy u1 u2) as [HL|[HL|HL]]; auto; exfalso.
    - destruct Q5 as (x & X1 & X2); [lia|]. rewrite P4 in X1 by lia. congruence.
    - destruct P5 as (x & X1 & X2); [lia|]. rewrite Q4 in X1 by lia. congruence. }
  assert (K : forall ws (u v : nat) i out pos, (forall j w, i + Z.of_nat u <= j -> zget ws j = Some w -> win_used w = 0) -> 0 <= i -> i + Z.of_nat (u + v) <= zlen ws -> write_loop (u + v) ws i out pos = write_loop u ws i out pos /\ forall r, size_loop (u + v) ws i r = size_loop u ws i r).
  { clear. induction u as [|u IH]; intros v i out pos HZ Hi Hl.
    - cbn [Nat.add] in *. revert i out pos HZ Hi Hl. induction v as [|v IHv]; intros i out pos HZ Hi Hl; cbn [write_loop size_loop]; auto. destruct (zget_in_range ws i) as [w E]; [lia|]. rewrite E. pose proof (HZ i w ltac:(lia) E) as HW. rewrite HW. change (0 =? 0) with true. cbv zeta. cbn iota.
      destruct (IHv (i + 1) out pos) as [V1 V2]; [intros j w' Hj Ew; apply (HZ j); auto; lia|lia|lia|]. split; [exact V1|]. intros r. apply V2.
    - cbn [Nat.add write_loop size_loop]. destruct (zget ws i) as [w|] eqn:E; [|split; auto]. assert (IH' : forall out pos, write_loop (u + v) ws (i + 1) out pos = write_loop u ws (i + 1) out pos /\ forall r, size_loop (u + v) ws (i + 1) r = size_loop u ws (i + 1) r). { intros. apply IH; [intros j w' Hj Ew; apply (HZ j); auto; lia|lia|lia]. }
      split; [|intros r; destruct (win_used w =? 0); apply (IH' out pos)]. cbv zeta. destruct (win_used w =? 0); [apply IH'|]. destruct (mem_write out pos [u8 i]); cbn [rbind]; auto. destruct (mem_write a (pos + 1) [u8 (win_used w)]); cbn [rbind]; auto. destruct (mem_read (win_data w) 0 (win_used w)); cbn [rbind]; auto. destruct (mem_write a0 (pos + 1 + 1) a1); cbn [rbind]; auto. apply IH'. }
  assert (W256 : forall b, zlen (bm_windows b) = 256 -> 0 <= bm_used b <= 256 -> (forall i w, bm_used b <= i -> zget (bm_windows b) i = Some w -> win_used w = 0) -> forall out, bitmap_write b out = write_loop 256 (bm_windows b) 0 out 0 /\ bitmap_size b = size_loop 256 (bm_windows b) 0 0).
  { intros b A B D out. unfold bitmap_write, bitmap_size. destruct (K (bm_windows b) (Z.to_nat (bm_used b)) (256 - Z.to_nat (bm_used b))%nat 0 out 0) as [K1 K2]; [intros j w Hj Ew; apply (D j); auto; lia|lia|lia|].
    replace (Z.to_nat (bm_used b) + (256 - Z.to_nat (bm_used b)))%nat with 256%nat in * by lia. rewrite K1, K2. auto. }
  destruct (W256 b1 A1 B1 D1 o1) as [V1 Z1]. destruct (W256 b2 A2 B2 D2 o2) as [V2 Z2].
  assert (HL : zlen o1 = zlen o2) by (rewrite Z1 in S1; rewrite Z2 in S2; rewrite EW in S1; congruence).
  assert (J1 : bm_inv (fun t => In t ts1) b1) by (split; [lia|split; [lia|split; auto]]). assert (J2 : bm_inv (fun t => In t ts1) b2) by (split; [lia|split; [lia|split; auto]]).
  assert (SS : forall b n o, bm_inv (fun t => In t ts1) b -> bitmap_size b = Ok n -> zlen o = n -> bitmap_write b o = Ok (encode (blocks b 0 (Z.to_nat (bm_used b))))).
  { intros b n o J S L. unfold bitmap_size in S. pose proof J as (_ & B & _). rewrite (size_blocks _ _ b 0 0 J) in S by lia. injection S as S. apply (write_blocks _ _ b 0 [] o J); [lia|lia|lia]. }
  rewrite (SS b1 n1 o1 J1 S1 L1). rewrite (SS b2 n2 o2 J2 S2 L2). f_equal.
  pose proof (SS b2 n2 o1 J2 S2 ltac:(lia)) as T2. pose proof (SS b1 n1 o1 J1 S1 L1) as T1. destruct (W256 b2 A2 B2 D2 o1) as [V3 _]. rewrite V3 in T2. rewrite V1 in T1. rewrite EW in T1. congruence.
Qed.
Example c32_case : exists b, add_all bitmap_new [1; 46; 47; 1234; 1] = Ok b /\ bitmap_size b = Ok 37 /\
  bitmap_write b (repeat 7 37) = Ok ([0; 6; 64; 0; 0; 0; 0; 3; 4; 27] ++ repeat 0 26 ++ [32]) /\ bitmap_contains ([0; 6; 64; 0; 0; 0; 0; 3; 4; 27] ++ repeat 0 26 ++ [32]) 37 1234 = Ok true.
Proof. eexists. split; [vm_compute; reflexivity|]. vm_compute. auto. Qed.
Print Assumptions c32_build.
Print Assumptions c32_set.
Print Assumptions c32_contains.
