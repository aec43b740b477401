From Verif Require Import Base WireModel.

Lemma be_length : forall n v, zlen (be n v) = Z.of_nat n.
Proof. induction n; intros; cbn [be]; [reflexivity|]. rewrite zlen_cons, IHn. lia. Qed.
Lemma be_bytes : forall n v, bytes (be n v).
Proof. induction n; intros; cbn [be]; constructor; [|apply IHn]. unfold byte. apply Z.mod_pos_bound. lia. Qed.
Lemma unbe_acc : forall l a, fold_left (fun a b => a * 256 + b) l a = a * 256 ^ zlen l + unbe l.
Proof.
  unfold unbe. induction l as [|b l IH]; intros a; cbn [fold_left]; [rewrite zlen_nil; lia|].
  rewrite IH, (IH (0 * 256 + b)), zlen_cons. rewrite Z.pow_add_r by (try lia; apply zlen_nonneg). lia.
Qed.
Lemma unbe_cons : forall b l, unbe (b :: l) = b * 256 ^ zlen l + unbe l.
Proof. intros. unfold unbe at 1. cbn [fold_left]. rewrite unbe_acc. lia. Qed.
Lemma unbe_app : forall l1 l2, unbe (l1 ++ l2) = unbe l1 * 256 ^ zlen l2 + unbe l2.
Proof.
  intros. unfold unbe at 1. rewrite fold_left_app. rewrite unbe_acc. reflexivity.
Qed.
Lemma unbe_be : forall n v, unbe (be n v) = v mod 256 ^ Z.of_nat n.
Proof.
  induction n as [|n IH]; intros v; cbn [be].
  - change (256 ^ Z.of_nat 0) with 1. rewrite Z.mod_1_r. reflexivity.
  - rewrite unbe_cons, be_length, IH. rewrite Nat2Z.inj_succ, Z.pow_succ_r by lia.
    set (P := 256 ^ Z.of_nat n). assert (0 < P) by (apply Z.pow_pos_nonneg; lia).
    rewrite (Z.mul_comm 256 P). rewrite Z.rem_mul_r by lia. lia.
Qed.
Lemma unbe_bound : forall l, bytes l -> 0 <= unbe l < 256 ^ zlen l.
Proof.
  induction 1 as [|b l H1 H2 IH]; [cbv; auto; split; congruence|]. rewrite unbe_cons, zlen_cons, Z.pow_add_r by (try lia; apply zlen_nonneg).
  unfold byte in H1. set (P := 256 ^ zlen l) in *. nia.
Qed.
Lemma be_unbe : forall l, bytes l -> be (length l) (unbe l) = l.
Proof.
  assert (G : forall l, bytes l -> forall a, be (length l) (a * 256 ^ zlen l + unbe l) = l).
  { induction 1 as [|b l H1 H2 IH]; intros a; cbn [length be]; auto.
    pose proof (unbe_bound l H2) as HB. rewrite unbe_cons, zlen_cons. fold (zlen l).
    rewrite Z.pow_add_r by (try lia; apply zlen_nonneg). change (256 ^ 1) with 256.
    replace (a * (256 * 256 ^ zlen l) + (b * 256 ^ zlen l + unbe l)) with ((a * 256 + b) * 256 ^ zlen l + unbe l) by ring.
    rewrite IH. f_equal. rewrite Z.add_comm, Z.div_add, Z.div_small by lia. unfold byte in H1. rewrite Z.add_0_l, Z.add_comm, Z.mul_comm.
    rewrite (Z.mul_comm 256), Z.mod_add by lia. apply Z.mod_small. lia. }
  intros l H. pose proof (G l H 0) as E. rewrite Z.mul_0_l, Z.add_0_l in E. exact E.
Qed.

Definition wf (w : wire) : Prop := 0 <= w_pos w <= w_size w /\ w_size w < 2 ^ 63.
Lemma wf_offset : forall w, wf w -> wire_offset w = w_pos w.
Proof. intros w [H1 H2]. unfold wire_offset, u64. apply Z.mod_small. lia. Qed.
Lemma wf_avail : forall w, wf w -> wire_available w = w_size w - w_pos w.
Proof. intros w H. unfold wire_available. rewrite wf_offset by auto. destruct H. unfold u64. apply Z.mod_small. lia. Qed.

Lemma mem_write_len : forall buf pos d b, mem_write buf pos d = Ok b -> zlen b = zlen buf.
Proof.
  intros buf pos d b H. unfold mem_write in H. destruct (_ && _) eqn:E; [|discriminate]. injection H as <-.
  pose proof (zlen_nonneg d). rewrite !zlen_app, zlen_zfirstn, zlen_zskipn by lia. lia.
Qed.
Lemma mem_read_len : forall buf pos n d, mem_read buf pos n = Ok d -> zlen d = n.
Proof.
  intros buf pos n d H. unfold mem_read in H. destruct (_ && _) eqn:E; [|discriminate]. injection H as <-.
  rewrite zlen_zfirstn; [auto|]. rewrite zlen_zskipn; lia.
Qed.
Lemma mem_read_ok : forall buf pos n, 0 <= pos -> 0 <= n -> pos + n <= zlen buf -> mem_read buf pos n = Ok (zfirstn n (zskipn pos buf)).
Proof. intros. unfold mem_read. replace (_ && _) with true by lia. auto. Qed.
Lemma mem_write_ok : forall buf pos d, 0 <= pos -> pos + zlen d <= zlen buf ->
  mem_write buf pos d = Ok (zfirstn pos buf ++ d ++ zskipn (pos + zlen d) buf).
Proof. intros. unfold mem_write. replace (_ && _) with true by lia. auto. Qed.
Lemma zfirstn_all : forall A (l : list A) n, zlen l <= n -> zfirstn n l = l.
Proof. intros. unfold zfirstn, zlen in *. apply firstn_all2. lia. Qed.
Lemma zfirstn_app_exact : forall A (a b : list A), zfirstn (zlen a) (a ++ b) = a.
Proof. intros. unfold zfirstn, zlen. rewrite Nat2Z.id. rewrite firstn_app, Nat.sub_diag, firstn_all. cbn [firstn]. apply app_nil_r. Qed.
Lemma zskipn_app_exact : forall A (a b : list A), zskipn (zlen a) (a ++ b) = b.
Proof. intros. unfold zskipn, zlen. rewrite Nat2Z.id. rewrite skipn_app, Nat.sub_diag, skipn_all. reflexivity. Qed.
Lemma zfirstn_skipn : forall A (l : list A) n, zfirstn n l ++ zskipn n l = l.
Proof. intros. apply firstn_skipn. Qed.
Lemma zlen_zeros : forall n, 0 <= n -> zlen (zeros n) = n.
Proof. intros. unfold zeros, zlen. rewrite repeat_length. lia. Qed.
Lemma zskipn_zskipn : forall A (l : list A) a b, 0 <= a -> 0 <= b -> zskipn a (zskipn b l) = zskipn (b + a) l.
Proof.
  intros A l a b Ha Hb. unfold zskipn. replace (Z.to_nat (b + a)) with (Z.to_nat b + Z.to_nat a)%nat by lia.
  generalize (Z.to_nat a) (Z.to_nat b). intros n m. revert l. induction m; intros l; cbn [skipn Nat.add]; auto. destruct l; auto. rewrite skipn_nil. auto.
Qed.
(** a write is seen by a read at the same place *)
Lemma mem_read_write : forall buf pos d b, mem_write buf pos d = Ok b -> mem_read b pos (zlen d) = Ok d.
Proof.
  intros buf pos d b H. pose proof (mem_write_len _ _ _ _ H) as HL. unfold mem_write in H. destruct (_ && _) eqn:E; [|discriminate]. injection H as <-.
  pose proof (zlen_nonneg d). rewrite mem_read_ok by (rewrite ?HL; lia).
  assert (E2 : zlen (zfirstn pos buf) = pos) by (apply zlen_zfirstn; lia). rewrite <- E2 at 1. rewrite zskipn_app_exact, zfirstn_app_exact. auto.
Qed.
