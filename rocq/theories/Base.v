(** Common definitions: results with undefined behaviour, bytes, bounded buffers. *)
From Coq Require Export List ZArith Bool Lia.
From Coq Require Export ZifyBool ZifyNat.
Export ListNotations.
Open Scope Z_scope.

Ltac Zify.zify_post_hook ::= Z.div_mod_to_equations.

(** Outcome of a modelled C function.
    [Ok]   - returned normally with a value;
    [Err]  - returned a libknot error code (src/libknot/errcode.h);
    [UB]   - the C program would do something undefined or hit a failing assert;
    [OOF]  - the model ran out of fuel (always excluded by a theorem). *)
Inductive res (A : Type) : Type :=
| Ok (a : A)
| Err (e : Z)
| UB
| OOF.
Arguments Ok {A} a.
Arguments Err {A} e.
Arguments UB {A}.
Arguments OOF {A}.

Definition rbind {A B} (m : res A) (f : A -> res B) : res B :=
  match m with
  | Ok a => f a
  | Err e => Err e
  | UB => UB
  | OOF => OOF
  end.

Notation "'let*' x ':=' m 'in' k" := (rbind m (fun x => k))
  (at level 200, x pattern, m at level 100, k at level 200, right associativity).

(** A value that is finished: neither undefined nor unfinished. *)
Definition defined {A} (r : res A) : Prop := r <> UB /\ r <> OOF.

(** libknot error codes, src/libknot/errcode.h:30-171, with the errno values of Linux. *)
Definition KNOT_EOK : Z := 0.
Definition KNOT_ENOMEM : Z := -12.
Definition KNOT_EINVAL : Z := -22.
Definition KNOT_ENOTSUP : Z := -95.
Definition KNOT_EBUSY : Z := -16.
Definition KNOT_EAGAIN : Z := -11.
Definition KNOT_ENOBUFS : Z := -105.
Definition KNOT_EMFILE : Z := -24.
Definition KNOT_ENFILE : Z := -23.
Definition KNOT_EACCES : Z := -13.
Definition KNOT_EISCONN : Z := -106.
Definition KNOT_ECONNREFUSED : Z := -111.
Definition KNOT_EALREADY : Z := -114.
Definition KNOT_ECONNRESET : Z := -104.
Definition KNOT_ECONNABORTED : Z := -103.
Definition KNOT_ENETRESET : Z := -102.
Definition KNOT_EHOSTUNREACH : Z := -113.
Definition KNOT_ENETUNREACH : Z := -101.
Definition KNOT_EHOSTDOWN : Z := -112.
Definition KNOT_ENETDOWN : Z := -100.
Definition KNOT_EADDRINUSE : Z := -98.
Definition KNOT_ENOENT : Z := -2.
Definition KNOT_EEXIST : Z := -17.
Definition KNOT_ERANGE : Z := -34.
Definition KNOT_EADDRNOTAVAIL : Z := -99.
Definition KNOT_ENOTDIR : Z := -20.
Definition KNOT_EPERM : Z := -1.
Definition KNOT_EROFS : Z := -30.
Definition KNOT_ERRNO_ERROR : Z := -500.
Definition KNOT_ERROR_MIN : Z := -1000.
Definition KNOT_ERROR : Z := -1000.
Definition KNOT_EPARSEFAIL : Z := -999.
Definition KNOT_ESEMCHECK : Z := -998.
Definition KNOT_EUPTODATE : Z := -997.
Definition KNOT_EFEWDATA : Z := -996.
Definition KNOT_ESPACE : Z := -995.
Definition KNOT_EMALF : Z := -994.
Definition KNOT_ENSEC3PAR : Z := -993.
Definition KNOT_ENSEC3CHAIN : Z := -992.
Definition KNOT_EOUTOFZONE : Z := -991.
Definition KNOT_EZONEINVAL : Z := -990.
Definition KNOT_ENOZONE : Z := -989.
Definition KNOT_ENONODE : Z := -988.
Definition KNOT_ENORECORD : Z := -987.
Definition KNOT_EISRECORD : Z := -986.
Definition KNOT_ENOMASTER : Z := -985.
Definition KNOT_EPREREQ : Z := -984.
Definition KNOT_ETTL : Z := -983.
Definition KNOT_ENOTTL : Z := -982.
Definition KNOT_ENOXFR : Z := -981.
Definition KNOT_EDENIED : Z := -980.
Definition KNOT_ECONN : Z := -979.
Definition KNOT_ETIMEOUT : Z := -978.
Definition KNOT_ENODIFF : Z := -977.
Definition KNOT_ENOTSIG : Z := -976.
Definition KNOT_ELIMIT : Z := -975.
Definition KNOT_EZONESIZE : Z := -974.
Definition KNOT_EOF : Z := -973.
Definition KNOT_ESYSTEM : Z := -972.
Definition KNOT_EFILE : Z := -971.
Definition KNOT_ESOAINVAL : Z := -970.
Definition KNOT_ETRAIL : Z := -969.
Definition KNOT_EPROCESSING : Z := -968.
Definition KNOT_EPROGRESS : Z := -967.
Definition KNOT_ELOOP : Z := -966.
Definition KNOT_EPROGRAM : Z := -965.
Definition KNOT_EFD : Z := -964.
Definition KNOT_ENOPARAM : Z := -963.
Definition KNOT_EXPARAM : Z := -962.
Definition KNOT_EEMPTYZONE : Z := -961.
Definition KNOT_ENODB : Z := -960.
Definition KNOT_EUNREACH : Z := -959.
Definition KNOT_EBADCERTKEY : Z := -958.
Definition KNOT_EFACCES : Z := -957.
Definition KNOT_EBACKUPDATA : Z := -956.
Definition KNOT_ECPUCOMPAT : Z := -955.
Definition KNOT_GENERAL_ERROR : Z := -900.
Definition KNOT_CTL_ESTOP : Z := -899.
Definition KNOT_CTL_EZONE : Z := -898.
Definition KNOT_NET_EADDR : Z := -897.
Definition KNOT_NET_ESOCKET : Z := -896.
Definition KNOT_NET_ECONNECT : Z := -895.
Definition KNOT_NET_EHSHAKE : Z := -894.
Definition KNOT_NET_ESEND : Z := -893.
Definition KNOT_NET_ERECV : Z := -892.
Definition KNOT_NET_ETIMEOUT : Z := -891.
Definition KNOT_BASE64_ESIZE : Z := -890.
Definition KNOT_BASE64_ECHAR : Z := -889.
Definition KNOT_BASE32HEX_ESIZE : Z := -888.
Definition KNOT_BASE32HEX_ECHAR : Z := -887.
Definition KNOT_TSIG_EBADSIG : Z := -886.
Definition KNOT_TSIG_EBADKEY : Z := -885.
Definition KNOT_TSIG_EBADTIME : Z := -884.
Definition KNOT_TSIG_EBADTRUNC : Z := -883.
Definition KNOT_DNSSEC_EMISSINGKEYTYPE : Z := -882.
Definition KNOT_DNSSEC_ENOKEY : Z := -881.
Definition KNOT_DNSSEC_ENOSIG : Z := -880.
Definition KNOT_DNSSEC_ENONSEC : Z := -879.
Definition KNOT_DNSSEC_ENSEC_BITMAP : Z := -878.
Definition KNOT_DNSSEC_ENSEC_CHAIN : Z := -877.
Definition KNOT_DNSSEC_ENSEC3_OPTOUT : Z := -876.
Definition KNOT_YP_ECHAR_TAB : Z := -875.
Definition KNOT_YP_EINVAL_ITEM : Z := -874.
Definition KNOT_YP_EINVAL_ID : Z := -873.
Definition KNOT_YP_EINVAL_DATA : Z := -872.
Definition KNOT_YP_EINVAL_INDENT : Z := -871.
Definition KNOT_YP_ENOTSUP_DATA : Z := -870.
Definition KNOT_YP_ENOTSUP_ID : Z := -869.
Definition KNOT_YP_ENODATA : Z := -868.
Definition KNOT_YP_ENOID : Z := -867.
Definition KNOT_CONF_ENOTINIT : Z := -866.
Definition KNOT_CONF_EVERSION : Z := -865.
Definition KNOT_CONF_EREDEFINE : Z := -864.
Definition KNOT_TXN_EEXISTS : Z := -863.
Definition KNOT_TXN_ENOTEXISTS : Z := -862.
Definition KNOT_INVALID_PUBLIC_KEY : Z := -861.
Definition KNOT_INVALID_PRIVATE_KEY : Z := -860.
Definition KNOT_INVALID_KEY_ALGORITHM : Z := -859.
Definition KNOT_INVALID_KEY_SIZE : Z := -858.
Definition KNOT_INVALID_KEY_ID : Z := -857.
Definition KNOT_INVALID_KEY_NAME : Z := -856.
Definition KNOT_NO_PUBLIC_KEY : Z := -855.
Definition KNOT_NO_PRIVATE_KEY : Z := -854.
Definition KNOT_NO_READY_KEY : Z := -853.
Definition KNOT_ESOON_EXPIRE : Z := -852.
Definition KNOT_DNSSEC_EKEYTAG_LIMIT : Z := -851.
Definition KNOT_DNSSEC_EXTRA_NSEC : Z := -850.
Definition KNOT_ERROR_MAX : Z := -501.

Definition byte (b : Z) : Prop := 0 <= b < 256.
Definition bytes (l : list Z) : Prop := Forall byte l.

Definition zlen {A} (l : list A) : Z := Z.of_nat (length l).

(** Bounded read of one element; [None] when the index is outside. *)
Definition zget {A} (l : list A) (i : Z) : option A :=
  if i <? 0 then None else nth_error l (Z.to_nat i).

Definition zfirstn {A} (n : Z) (l : list A) : list A := firstn (Z.to_nat n) l.
Definition zskipn {A} (n : Z) (l : list A) : list A := skipn (Z.to_nat n) l.

(** Unsigned wrap-around. *)
Definition u8 (x : Z) : Z := x mod 2 ^ 8.
Definition u16 (x : Z) : Z := x mod 2 ^ 16.
Definition u32 (x : Z) : Z := x mod 2 ^ 32.
Definition u64 (x : Z) : Z := x mod 2 ^ 64.

Lemma zlen_nonneg : forall {A} (l : list A), 0 <= zlen l.
Proof. intros; unfold zlen; lia. Qed.

Lemma zlen_nil : forall A, zlen (@nil A) = 0.
Proof. reflexivity. Qed.

Lemma zlen_cons : forall {A} (a : A) l, zlen (a :: l) = 1 + zlen l.
Proof. intros; unfold zlen; cbn [length]; lia. Qed.

Lemma zlen_app : forall {A} (l1 l2 : list A), zlen (l1 ++ l2) = zlen l1 + zlen l2.
Proof. intros; unfold zlen; rewrite app_length; lia. Qed.

Lemma zget_some : forall {A} (l : list A) i a,
  zget l i = Some a -> 0 <= i < zlen l.
Proof.
  unfold zget, zlen; intros A l i a H.
  destruct (i <? 0) eqn:E; [discriminate|].
  assert (Z.to_nat i < length l)%nat by (apply nth_error_Some; congruence).
  lia.
Qed.

Lemma zget_in_range : forall {A} (l : list A) i,
  0 <= i < zlen l -> exists a, zget l i = Some a.
Proof.
  unfold zget, zlen; intros A l i H.
  destruct (i <? 0) eqn:E; [lia|].
  destruct (nth_error l (Z.to_nat i)) eqn:E2; eauto.
  apply nth_error_None in E2; lia.
Qed.

Lemma zget_In : forall {A} (l : list A) i a, zget l i = Some a -> In a l.
Proof.
  unfold zget; intros A l i a H. destruct (i <? 0); [discriminate|].
  eapply nth_error_In; eauto.
Qed.

Lemma zget_app_l : forall {A} (l1 l2 : list A) i,
  i < zlen l1 -> zget (l1 ++ l2) i = zget l1 i.
Proof.
  unfold zget, zlen; intros. destruct (i <? 0) eqn:E; auto.
  apply nth_error_app1; lia.
Qed.

Lemma zget_app_r : forall {A} (l1 l2 : list A) i,
  zlen l1 <= i -> zget (l1 ++ l2) i = zget l2 (i - zlen l1).
Proof.
  unfold zget, zlen; intros.
  destruct (i <? 0) eqn:E; [lia|].
  destruct (i - Z.of_nat (length l1) <? 0) eqn:E2; [lia|].
  rewrite nth_error_app2 by lia. f_equal. lia.
Qed.

Lemma zget_0 : forall {A} (a : A) l, zget (a :: l) 0 = Some a.
Proof. reflexivity. Qed.

Lemma zget_cons : forall {A} (a : A) l i, 0 < i -> zget (a :: l) i = zget l (i - 1).
Proof.
  intros. change (a :: l) with ([a] ++ l).
  rewrite zget_app_r; [reflexivity|]. unfold zlen; cbn; lia.
Qed.

Lemma zget_none : forall {A} (l : list A) i, i < 0 \/ zlen l <= i -> zget l i = None.
Proof.
  unfold zget, zlen; intros. destruct (i <? 0) eqn:E; auto.
  apply nth_error_None; lia.
Qed.

Lemma zlen_zskipn : forall {A} (l : list A) n, 0 <= n <= zlen l -> zlen (zskipn n l) = zlen l - n.
Proof. unfold zlen, zskipn; intros; rewrite skipn_length; lia. Qed.

Lemma zlen_zfirstn : forall {A} (l : list A) n, 0 <= n <= zlen l -> zlen (zfirstn n l) = n.
Proof. unfold zlen, zfirstn; intros; rewrite firstn_length; lia. Qed.

Lemma zget_zskipn : forall {A} (l : list A) n i,
  0 <= n -> 0 <= i -> zget (zskipn n l) i = zget l (n + i).
Proof.
  unfold zget, zskipn; intros.
  destruct (i <? 0) eqn:E; [lia|]. destruct (n + i <? 0) eqn:E2; [lia|].
  replace (Z.to_nat (n + i)) with (Z.to_nat n + Z.to_nat i)%nat by lia.
  generalize (Z.to_nat n) (Z.to_nat i). clear.
  intros n i. revert l. induction n; intros; cbn.
  - reflexivity.
  - destruct l; cbn; [destruct i; reflexivity|]. apply IHn.
Qed.

Lemma zget_byte : forall l i b, bytes l -> zget l i = Some b -> byte b.
Proof.
  intros l i b HB H. apply zget_In in H. unfold bytes in HB.
  rewrite Forall_forall in HB. auto.
Qed.

Lemma bytes_app : forall l1 l2, bytes (l1 ++ l2) <-> bytes l1 /\ bytes l2.
Proof. intros; unfold bytes; apply Forall_app. Qed.

Lemma bytes_cons : forall a l, bytes (a :: l) <-> byte a /\ bytes l.
Proof. intros; unfold bytes; apply Forall_cons_iff. Qed.

(** Boolean sweep over all bytes. *)
Definition all_bytes : list Z := map Z.of_nat (seq 0 256).
Lemma all_bytes_spec : forall b, byte b -> In b all_bytes.
Proof.
  unfold byte, all_bytes; intros. apply in_map_iff. exists (Z.to_nat b).
  split; [lia|]. apply in_seq; lia.
Qed.
Lemma byte_sweep : forall (P : Z -> bool),
  forallb P all_bytes = true -> forall b, byte b -> P b = true.
Proof. intros P H b Hb. rewrite forallb_forall in H. auto using all_bytes_spec. Qed.

(** Replacing one element (the index must be inside). *)
Definition zset {A} (l : list A) (i : Z) (x : A) : list A := zfirstn i l ++ x :: zskipn (i + 1) l.
Lemma zlen_zset : forall {A} (l : list A) i x, 0 <= i < zlen l -> zlen (zset l i x) = zlen l.
Proof. intros. unfold zset. rewrite zlen_app, zlen_cons, zlen_zfirstn, zlen_zskipn by lia. lia. Qed.
Lemma zget_zfirstn : forall {A} (l : list A) n i, i < n -> zget (zfirstn n l) i = zget l i.
Proof.
  intros A l n i H. unfold zget, zfirstn. destruct (i <? 0) eqn:E; auto.
  assert (H' : (Z.to_nat i < Z.to_nat n)%nat) by lia. revert l H'. generalize (Z.to_nat i) (Z.to_nat n).
  intros a b. revert a. induction b; intros a l Hab; [lia|]. destruct l; [destruct a; reflexivity|].
  destruct a; cbn [firstn nth_error]; auto. apply IHb. lia.
Qed.
Lemma zget_zset : forall {A} (l : list A) i x j, 0 <= i < zlen l -> zget (zset l i x) j = if j =? i then Some x else zget l j.
Proof.
  intros A l i x j H. assert (L : zlen (zfirstn i l) = i) by (apply zlen_zfirstn; lia). unfold zset. destruct (j =? i) eqn:E.
  - rewrite zget_app_r by lia. replace (j - zlen (zfirstn i l)) with 0 by lia. reflexivity.
  - destruct (j <? i) eqn:E2.
    + rewrite zget_app_l by lia. apply zget_zfirstn. lia.
    + rewrite zget_app_r by lia. rewrite zget_cons by lia. rewrite zget_zskipn by lia. f_equal. lia.
Qed.
Lemma zget_ext : forall {A} (l1 l2 : list A), zlen l1 = zlen l2 -> (forall i, 0 <= i < zlen l1 -> zget l1 i = zget l2 i) -> l1 = l2.
Proof.
  induction l1 as [|a l1 IH]; intros [|b l2] HL H; auto; rewrite ?zlen_cons, ?zlen_nil in HL.
  - pose proof (zlen_nonneg l2). lia.
  - pose proof (zlen_nonneg l1). lia.
  - assert (E : a = b). { specialize (H 0). rewrite !zget_0 in H. rewrite zlen_cons in H. pose proof (zlen_nonneg l1). specialize (H ltac:(lia)). congruence. }
    subst. f_equal. apply IH; [lia|]. intros i Hi. specialize (H (i + 1)). rewrite zlen_cons in H. specialize (H ltac:(lia)). rewrite !zget_cons in H by lia. replace (i + 1 - 1) with i in H by lia. auto.
Qed.
Lemma app_inj_len : forall {A} (a b c d : list A), zlen a = zlen c -> a ++ b = c ++ d -> a = c /\ b = d.
Proof.
  induction a as [|x a IH]; intros b [|y c] d HL HE; rewrite ?zlen_cons, ?zlen_nil in HL; auto; try (pose proof (zlen_nonneg a)); try (pose proof (zlen_nonneg c)); try lia. cbn [app] in HE. injection HE as -> HE. destruct (IH b c d ltac:(lia) HE). subst. auto.
Qed.
