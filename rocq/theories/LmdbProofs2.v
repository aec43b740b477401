(** Lemmas on transactions and loops of LmdbModel.v. *)
From Verif Require Import Base WireModel WireProofs DnameModel LmdbModel LmdbProofs.
From Coq Require Import Sorting.Sorted.

Definition ready (t : txn) : Prop := t_opened t = true /\ t_ret t = KNOT_EOK.

Lemma err_to_knot_0 : forall e, err_to_knot e = KNOT_EOK <-> e = 0.
Proof.
  intros e. unfold err_to_knot, KNOT_EOK, KNOT_ENOENT, KNOT_ELIMIT, KNOT_ESPACE, MDB_NOTFOUND, MDB_TXN_FULL, MDB_MAP_FULL, ENOSPC.
  destruct (e =? 0) eqn:E1; [lia|]. destruct (e =? -30798) eqn:E2; [lia|]. destruct (e =? -30788) eqn:E3; [lia|].
  destruct ((e =? -30792) || (e =? 28)) eqn:E4; [lia|]. destruct (e <? 0) eqn:E5; lia.
Qed.
(** -2 and 2 are ENOENT, too; LMDB returns them only from the file system *)
Definition io_sane (io : list Z) : Prop := Forall (fun e => e <> 2 /\ e <> -2) io.
Lemma err_to_knot_noent : forall e, err_to_knot e = KNOT_ENOENT -> e = MDB_NOTFOUND \/ e = 2 \/ e = -2.
Proof.
  intros e. unfold err_to_knot, KNOT_EOK, KNOT_ENOENT, KNOT_ELIMIT, KNOT_ESPACE, MDB_NOTFOUND, MDB_TXN_FULL, MDB_MAP_FULL, ENOSPC.
  destruct (e =? 0) eqn:E1; [lia|]. destruct (e =? -30798) eqn:E2; [lia|]. destruct (e =? -30788) eqn:E3; [lia|].
  destruct ((e =? -30792) || (e =? 28)) eqn:E4; [lia|]. destruct (e <? 0) eqn:E5; lia.
Qed.
Lemma io_next_sane : forall io e io', io_sane io -> io_next io = (e, io') -> io_sane io' /\ e <> MDB_NOTFOUND /\ e <> 2 /\ e <> -2 /\ (io = [] -> e = 0 /\ io' = []).
Proof.
  intros [|x io] e io' S H; cbn [io_next] in H; injection H as <- <-.
  - unfold MDB_NOTFOUND. repeat split; auto; lia.
  - inversion S; subst. unfold MDB_NOTFOUND. split; auto. destruct (x =? -30798) eqn:E; repeat split; try lia; discriminate.
Qed.

Lemma semcheck_ready : forall t, ready t -> txn_semcheck t = (true, t).
Proof.
  intros t [H1 H2]. unfold txn_semcheck. rewrite H1, H2. cbn [negb andb]. rewrite H2. change (KNOT_EOK =? KNOT_EOK) with true. reflexivity.
Qed.
Lemma semcheck_dead : forall t, t_ret t <> KNOT_EOK -> txn_semcheck t = (false, lmdb_abort t).
Proof.
  intros t H. unfold txn_semcheck. replace (t_ret t =? KNOT_EOK) with false by lia. rewrite andb_false_r. replace (t_ret t =? KNOT_EOK) with false by lia. reflexivity.
Qed.
Lemma abort_ret : forall t, t_ret (lmdb_abort t) = t_ret t.
Proof. intros. unfold lmdb_abort. destruct (t_opened t); reflexivity. Qed.
Lemma abort_data : forall t, t_data (lmdb_abort t) = t_data t.
Proof. intros. unfold lmdb_abort. destruct (t_opened t); reflexivity. Qed.
Lemma abort_rw : forall t, t_rw (lmdb_abort t) = t_rw t.
Proof. intros. unfold lmdb_abort. destruct (t_opened t); reflexivity. Qed.
Lemma abort_io : forall t, t_io (lmdb_abort t) = t_io t.
Proof. intros. unfold lmdb_abort. destruct (t_opened t); reflexivity. Qed.

(** ** a dead transaction stays dead *)
Lemma find_dead : forall t w how force, t_ret t <> KNOT_EOK -> lmdb_find t w how force = (false, lmdb_abort t).
Proof. intros. unfold lmdb_find. rewrite semcheck_dead by auto. reflexivity. Qed.
Lemma first_dead : forall t, t_ret t <> KNOT_EOK -> lmdb_first t = (false, lmdb_abort t).
Proof. intros. unfold lmdb_first. rewrite semcheck_dead by auto. reflexivity. Qed.
Lemma next_dead : forall t, t_ret t <> KNOT_EOK -> lmdb_next t = (false, lmdb_abort t).
Proof. intros. unfold lmdb_next. replace (t_ret t =? KNOT_EOK) with false by lia. rewrite andb_false_r. rewrite semcheck_dead by auto. reflexivity. Qed.
Lemma del_dead : forall t, t_ret t <> KNOT_EOK -> lmdb_del_cur t = Ok (lmdb_abort t).
Proof. intros. unfold lmdb_del_cur. rewrite semcheck_dead by auto. reflexivity. Qed.
Lemma insert_dead : forall t k v, t_ret t <> KNOT_EOK -> lmdb_insert t k v = (false, lmdb_abort t).
Proof. intros. unfold lmdb_insert. rewrite semcheck_dead by auto. cbn [negb]. rewrite abort_ret. replace (t_ret t =? KNOT_EOK) with false by lia. reflexivity. Qed.
Lemma commit_dead : forall d t, t_ret t <> KNOT_EOK -> lmdb_commit d t = (d, lmdb_abort t).
Proof. intros. unfold lmdb_commit. rewrite semcheck_dead by auto. reflexivity. Qed.

(** ** one cursor step *)
Lemma curget_spec : forall t op b t', curget t op = (b, t') -> io_sane (t_io t) ->
  t_data t' = t_data t /\ t_opened t' = t_opened t /\ t_rw t' = t_rw t /\ io_sane (t_io t') /\
  ((exists k v, b = true /\ t_ret t' = KNOT_EOK /\ mdb_lookup t op = Some (k, v) /\ t_cur t' = CAt k /\ t_ck t' = k /\ t_cv t' = v) \/
   (b = false /\ t_ret t' = KNOT_EOK /\ mdb_lookup t op = None /\ (t_cur t <> CNull -> t_cur t' <> CNull)) \/
   (b = false /\ t_ret t' <> KNOT_EOK /\ (t_io t <> [] \/ (is_set op = true /\ t_ck t = [])))) /\
  (t_io t = [] -> t_io t' = []).
Proof.
  intros t op b t' H S. unfold curget, mdb_cursor_get in H. destruct (io_next (t_io t)) as [e io] eqn:Ei.
  destruct (io_next_sane _ _ _ S Ei) as (S' & N1 & N2 & N3 & N4).
  destruct (e =? 0) eqn:E0; cbn [negb] in H.
  - cbn [set_io t_ck] in H. destruct (is_set op && (zlen (t_ck t) =? 0)) eqn:Es.
    + apply andb_true_iff in Es. destruct Es as [Es1 Es2]. change (err_to_knot MDB_BAD_VALSIZE) with MDB_BAD_VALSIZE in H.
      change (MDB_BAD_VALSIZE =? KNOT_ENOENT) with false in H. change (MDB_BAD_VALSIZE =? KNOT_EOK) with false in H. injection H as <- <-.
      cbn [set_ret set_io t_data t_opened t_rw t_io t_ret]. do 4 (split; [auto|]). split.
      * right. right. split; auto. split; [unfold MDB_BAD_VALSIZE, KNOT_EOK; lia|]. right. split; auto. destruct (t_ck t); [auto|rewrite zlen_cons in Es2; pose proof (zlen_nonneg l); lia].
      * intros Hn. destruct (N4 Hn). auto.
    + assert (L : mdb_lookup (set_io t io) op = mdb_lookup t op) by (destruct op; reflexivity).
      rewrite L in H. destruct (mdb_lookup t op) as [[k v]|] eqn:El.
      * change (err_to_knot 0 =? KNOT_ENOENT) with false in H. change (err_to_knot 0 =? KNOT_EOK) with true in H. injection H as <- <-.
        cbn [set_ret set_cur set_ckv set_io t_data t_opened t_rw t_io t_ret t_cur t_ck t_cv]. do 4 (split; [auto|]). split.
        -- left. exists k, v. repeat split; auto. -- intros Hn. destruct (N4 Hn). auto.
      * change (err_to_knot MDB_NOTFOUND =? KNOT_ENOENT) with true in H. injection H as <- <-.
        destruct (is_set op); cbn [set_ret set_cur set_ckv set_io t_data t_opened t_rw t_io t_ret t_cur t_ck t_cv]; do 4 (split; [auto|]);
          (split; [right; left; repeat split; auto; congruence|intros Hn; destruct (N4 Hn); auto]).
  - assert (Hn : err_to_knot e <> KNOT_ENOENT). { intros Hc. apply err_to_knot_noent in Hc. lia. }
    assert (He : err_to_knot e <> KNOT_EOK). { intros Hc. apply (proj1 (err_to_knot_0 e)) in Hc. lia. }
    replace (err_to_knot e =? KNOT_ENOENT) with false in H by lia. replace (err_to_knot e =? KNOT_EOK) with false in H by lia. injection H as <- <-.
    cbn [set_ret set_io t_data t_opened t_rw t_io t_ret]. do 4 (split; [auto|]). split.
    + right. right. split; auto. split; auto. left. intros Hc. destruct (N4 Hc). lia.
    + intros Hc. destruct (N4 Hc). lia.
Qed.
Lemma init_cursor_spec : forall t b t', init_cursor t = (b, t') -> ready t -> io_sane (t_io t) ->
  t_data t' = t_data t /\ t_rw t' = t_rw t /\ io_sane (t_io t') /\ (t_io t = [] -> b = true /\ t_io t' = []) /\
  (if b then ready t' /\ t_cur t' <> CNull else t_ret t' <> KNOT_EOK).
Proof.
  intros t b t' H [R1 R2] S. unfold init_cursor in H. destruct (t_cur t) eqn:Ec.
  - destruct (io_next (t_io t)) as [e io] eqn:Ei. destruct (io_next_sane _ _ _ S Ei) as (S' & N1 & N2 & N3 & N4).
    cbn [set_ret set_io t_ret] in H. destruct (err_to_knot e =? KNOT_EOK) eqn:Ee; cbn [negb] in H; injection H as <- <-.
    + cbn [set_ret set_cur set_io t_data t_opened t_rw t_io t_ret t_cur]. do 3 (split; [auto|]). split; [intros Hn; destruct (N4 Hn); auto|]. unfold ready.
      cbn [set_ret set_cur set_io t_data t_opened t_rw t_io t_ret t_cur]. split; [split; [auto|lia]|congruence].
    + rewrite abort_data, abort_rw, abort_io, abort_ret. cbn [set_ret set_cur set_io t_data t_opened t_rw t_io t_ret t_cur]. do 3 (split; [auto|]).
      split; [|lia]. intros Hn. destruct (N4 Hn); subst. change (err_to_knot 0 =? KNOT_EOK) with true in Ee. discriminate.
  - injection H as <- <-. do 3 (split; [auto|]). split; [auto|]. split; [split; auto|congruence].
  - injection H as <- <-. do 3 (split; [auto|]). split; [auto|]. split; [split; auto|congruence].
Qed.

(** ** find *)
Definition hit (how : find_how) (d : db) (w k v : list Z) : Prop :=
  In (k, v) d /\
  match how with
  | EXACT => k = w
  | GEQ => kcmp w k <> Gt /\ forall k' v', In (k', v') d -> kcmp w k' <> Gt -> kcmp k k' <> Gt
  | LEQ => kcmp k w <> Gt /\ forall k' v', In (k', v') d -> kcmp k' w <> Gt -> kcmp k' k <> Gt
  end.
Definition miss (how : find_how) (d : db) (w : list Z) : Prop :=
  forall k v, In (k, v) d ->
  match how with EXACT => k <> w | GEQ => kcmp w k = Gt | LEQ => kcmp k w = Gt end.

Lemma find_body_spec : forall t w how b t', find_body t w how = (b, t') -> ready t -> io_sane (t_io t) -> sorted (t_data t) -> t_cur t <> CNull ->
  t_data t' = t_data t /\ t_rw t' = t_rw t /\ t_opened t' = true /\ io_sane (t_io t') /\ (t_io t = [] -> w <> [] -> t_ret t' = KNOT_EOK) /\ (t_io t = [] -> t_io t' = []) /\
  (b = true -> t_ret t' = KNOT_EOK /\ t_cur t' = CAt (t_ck t') /\ hit how (t_data t) w (t_ck t') (t_cv t')) /\
  (b = false -> t_ret t' = KNOT_EOK -> t_cur t' <> CNull /\ miss how (t_data t) w).
Proof.
  intros t w how b t' H [R1 R2] S So Hc. unfold find_body in H. cbv zeta in H.
  destruct (curget (set_ckv t w []) (match how with EXACT => MDB_SET | _ => MDB_SET_RANGE end)) as [b1 t1] eqn:E1.
  pose proof (curget_spec _ _ _ _ E1 S) as (D1 & O1 & W1 & S1 & C1 & I1). cbn [set_ckv t_data t_opened t_rw t_io t_cur] in *.
  assert (Hset : is_set (match how with EXACT => MDB_SET | _ => MDB_SET_RANGE end) = true) by (destruct how; auto).
  destruct how.
  - injection H as <- <-. do 2 (split; [auto|]). split; [congruence|]. split; [auto|]. cbn [mdb_lookup set_ckv t_ck t_data] in C1.
    split; [|split; [auto|]].
    + intros Hi Hw. destruct C1 as [(k & v & _ & C & _)|[(_ & C & _)|(_ & _ & [C|[_ C]])]]; auto; cbn [set_ckv t_ck] in *; congruence.
    + split.
      * intros ->. destruct C1 as [(k & v & _ & C & L & C3 & C4 & C5)|[(C & _)|(C & _)]]; try discriminate. split; auto. split; [congruence|].
        destruct (db_get (t_data t) w) eqn:G; [|discriminate]. injection L as <- <-. apply db_get_in in G; auto. rewrite C4, C5. split; auto.
      * intros -> Hr. destruct C1 as [(k & v & C & _)|[(_ & _ & L & C)|(_ & C & _)]]; try congruence. split; auto. intros k v Hi ->.
        apply db_get_in in Hi; auto. rewrite Hi in L. discriminate.
  - destruct (t_ret t1 =? KNOT_EOK) eqn:Er.
    2:{ injection H as <- <-. do 2 (split; [auto|]). split; [congruence|]. split; [auto|]. split.
        { intros Hi Hw. destruct C1 as [(k & v & _ & C & _)|[(_ & C & _)|(_ & _ & [C|[_ C]])]]; auto; cbn [set_ckv t_ck] in *; congruence. }
        split; auto. split; [|intros; lia]. intros ->. destruct C1 as [(k & v & _ & C & _)|[(C & _)|(C & _)]]; lia. }
    destruct C1 as [(k & v & -> & Cr & L & C3 & C4 & C5)|[(-> & Cr & L & C)|(_ & C & _)]]; [| |lia].
    + cbn [mdb_lookup set_ckv t_ck t_data] in L. apply db_geq_some in L; auto. destruct L as (L1 & L2 & _ & L4).
      rewrite C4 in H. destruct (kcmp k w) eqn:Ek.
      * injection H as <- <-. apply kcmp_eq in Ek. subst k. do 2 (split; [auto|]). split; [congruence|]. split; [auto|]. split; [auto|]. split; [auto|]. split; [|discriminate].
        intros _. split; auto. split; [congruence|]. rewrite C4, C5. split; [auto|]. split; [rewrite kcmp_refl; congruence|auto].
      * exfalso. apply kcmp_gt_lt in Ek. congruence.
      * pose proof (curget_spec _ _ _ _ H S1) as (D2 & O2 & W2 & S2 & C2 & I2). rewrite D1 in D2. do 2 (split; [congruence|]). split; [congruence|]. split; [auto|].
        cbn [mdb_lookup] in C2. rewrite C3, D1 in C2. pose proof (db_lt_spec (t_data t) k So) as P.
        split; [|split; [auto|split]].
        -- intros Hi Hw. destruct C2 as [(k2 & v2 & _ & C & _)|[(_ & C & _)|(_ & _ & [C|[C _]])]]; auto; try discriminate. exfalso. auto.
        -- intros ->. destruct C2 as [(k2 & v2 & _ & Cr2 & L & K3 & K4 & K5)|[(C & _)|(C & _)]]; try discriminate. split; auto. split; [congruence|].
           rewrite K4, K5. rewrite L in P. destruct P as (P1 & P2 & P3). split; auto.
           assert (Hle : kcmp k2 w <> Gt). { intros Hg. apply kcmp_gt_lt in Hg. assert (kcmp k k2 <> Gt) by (eapply L4; eauto; congruence). apply kcmp_gt_lt in P2. congruence. }
           split; auto. intros k' v' Hi Hle'. apply P3 with (v'' := v'); auto. apply kcmp_gt_lt in Ek. destruct (kcmp k' w) eqn:Eq'; try congruence.
           ++ apply kcmp_eq in Eq'. subst. auto. ++ eapply kcmp_lt_trans; eauto.
        -- intros -> Hr. destruct C2 as [(k2 & v2 & C & _)|[(_ & _ & L & C)|(_ & C & _)]]; try congruence. split; [apply C; congruence|]. rewrite L in P. intros k' v' Hi.
           destruct (kcmp k' w) eqn:Eq'; auto; exfalso; apply kcmp_gt_lt in Ek; apply (P k' v' Hi).
           ++ apply kcmp_eq in Eq'. subst. auto. ++ eapply kcmp_lt_trans; eauto.
    + cbn [mdb_lookup set_ckv t_ck t_data] in L. pose proof (db_geq_none _ _ _ L) as N. cbn iota in N.
      pose proof (curget_spec _ _ _ _ H S1) as (D2 & O2 & W2 & S2 & C2 & I2). rewrite D1 in D2. do 2 (split; [congruence|]). split; [congruence|]. split; [auto|].
      cbn [mdb_lookup] in C2. rewrite D1 in C2. pose proof (db_last_spec (t_data t) So) as P.
      split; [|split; [auto|split]].
      * intros Hi Hw. destruct C2 as [(k2 & v2 & _ & C' & _)|[(_ & C' & _)|(_ & _ & [C'|[C' _]])]]; auto; try discriminate. exfalso. auto.
      * intros ->. destruct C2 as [(k2 & v2 & _ & Cr2 & L2 & K3 & K4 & K5)|[(C' & _)|(C' & _)]]; try discriminate. split; auto. split; [congruence|].
        rewrite K4, K5. rewrite L2 in P. destruct P as (P1 & P2). split; auto. split; [|intros; eauto]. apply N in P1. apply kcmp_gt_lt in P1. congruence.
      * intros -> Hr. destruct C2 as [(k2 & v2 & C' & _)|[(_ & _ & L2 & C')|(_ & C' & _)]]; try congruence. split; auto. rewrite L2 in P. intros k' v' Hi. rewrite P in Hi. destruct Hi.
  - injection H as <- <-. do 2 (split; [auto|]). split; [congruence|]. split; [auto|]. cbn [mdb_lookup set_ckv t_ck t_data] in C1.
    split; [|split; [auto|split]].
    + intros Hi Hw. destruct C1 as [(k & v & _ & C & _)|[(_ & C & _)|(_ & _ & [C|[_ C]])]]; auto; cbn [set_ckv t_ck] in *; congruence.
    + intros ->. destruct C1 as [(k & v & _ & C & L & C3 & C4 & C5)|[(C & _)|(C & _)]]; try discriminate. split; auto. split; [congruence|].
      apply db_geq_some in L; auto. destruct L as (L1 & L2 & _ & L4). rewrite C4, C5. split; auto.
    + intros -> Hr. destruct C1 as [(k & v & C & _)|[(_ & _ & L & C)|(_ & C & _)]]; try congruence. split; auto. intros k v Hi.
      apply (db_geq_none _ _ _ L _ _ Hi).
Qed.

Lemma find_spec : forall t w how force b t', lmdb_find t (Some w) how force = (b, t') -> ready t -> io_sane (t_io t) -> sorted (t_data t) ->
  t_data t' = t_data t /\ t_rw t' = t_rw t /\ io_sane (t_io t') /\ (t_io t = [] -> t_io t' = []) /\
  (t_io t = [] -> w <> [] -> force = false -> t_ret t' = KNOT_EOK) /\
  (b = true -> ready t' /\ t_cur t' = CAt (t_ck t') /\ hit how (t_data t) w (t_ck t') (t_cv t')) /\
  (b = false -> (t_ret t' = KNOT_EOK -> t_opened t' = true /\ t_cur t' <> CNull /\ force = false /\ miss how (t_data t) w)) /\
  (b = false -> force = true -> t_io t = [] -> w <> [] -> t_ret t' = KNOT_ENOENT /\ miss how (t_data t) w) /\
  (t_ret t' = KNOT_ENOENT -> io_sane (t_io t) -> force = true -> b = false).
Proof.
  intros t w how force b t' H R S So. unfold lmdb_find in H. rewrite semcheck_ready in H by auto. cbn [negb] in H.
  destruct (init_cursor t) as [ok t1] eqn:Ei. pose proof (init_cursor_spec _ _ _ Ei R S) as (D1 & W1 & S1 & N1 & C1).
  destruct ok; cbn [negb] in H.
  2:{ injection H as <- <-. do 3 (split; [auto|]). split; [intros Hn; destruct (N1 Hn); congruence|]. split; [intros Hn; destruct (N1 Hn); congruence|].
      split; [discriminate|]. split; [intros; congruence|]. split; auto. intros _ _ Hn. destruct (N1 Hn). discriminate. }
  destruct C1 as [R1 C1]. destruct (find_body t1 w how) as [b2 t2] eqn:Ef.
  rewrite <- D1 in So. pose proof (find_body_spec _ _ _ _ _ Ef R1 S1 So C1) as (D2 & W2 & O2 & S2 & N2 & N3 & T2 & F2).
  rewrite D1 in *. destruct (force && negb b2 && (t_ret t2 =? KNOT_EOK)) eqn:Ec.
  - injection H as <- <-. apply andb_true_iff in Ec. destruct Ec as [Ec Ec3]. apply andb_true_iff in Ec. destruct Ec as [-> Ec2]. destruct b2; [discriminate|].
    cbn [set_ret t_data t_rw t_io t_ret t_opened t_cur]. do 2 (split; [congruence|]). split; [auto|]. split; [intros Hn; destruct (N1 Hn); auto|]. split; [discriminate|]. split; [discriminate|].
    split; [unfold KNOT_ENOENT, KNOT_EOK; lia|]. split; auto. intros. split; auto. apply F2; auto. lia.
  - injection H as <- <-. do 2 (split; [congruence|]). split; [auto|]. split; [intros Hn; destruct (N1 Hn); auto|]. split; [intros Hn Hw _; destruct (N1 Hn); auto|].
    split; [intros Hb; destruct (T2 Hb) as (A & B & C); split; [split; auto|auto]|]. split.
    + intros -> Hr. destruct (F2 eq_refl Hr) as [A B]. split; auto. split; auto. split; auto. destruct force; auto. rewrite Hr in Ec. discriminate.
    + split.
      * intros -> -> Hn Hw. destruct (N1 Hn) as [_ N1']. rewrite (N2 N1' Hw) in Ec. discriminate.
      * intros Hr _ ->. destruct b2; auto. destruct (T2 eq_refl) as (A & _). rewrite A in Hr. discriminate.
Qed.

(** ** loops *)
Lemma db_geq_mid : forall lo hi k, (forall k' v', In (k', v') lo -> kcmp k' k <> Gt) -> (forall k' v', In (k', v') hi -> kcmp k k' = Lt) ->
  db_geq (lo ++ hi) k true = mdb_first hi.
Proof.
  induction lo as [|[k0 v0] lo IH]; intros hi k H1 H2; cbn [app db_geq].
  - destruct hi as [|[k0 v0] hi]; cbn [db_geq mdb_first]; auto. assert (kcmp k k0 = Lt) by (eapply H2; left; reflexivity). apply kcmp_gt_lt in H. rewrite H. auto.
  - assert (kcmp k0 k <> Gt) by (eapply H1; left; reflexivity). destruct (kcmp k0 k); try congruence; apply IH; intros; eauto using in_cons; eapply H1; right; eauto.
Qed.
Lemma sorted_app : forall a b, sorted (a ++ b) -> sorted a /\ sorted b /\ (forall k v k' v', In (k, v) a -> In (k', v') b -> kcmp k k' = Lt).
Proof.
  induction a as [|[k0 v0] a IH]; intros b S; cbn [app] in S.
  - split; [constructor|]. split; auto. intros k v k' v' [].
  - apply sorted_inv in S. destruct S as [S L]. destruct (IH b S) as (A & B & C). split.
    + apply sorted_cons; auto. intros. eapply L. apply in_or_app. eauto.
    + split; auto. intros k v k' v' [H|H] Hb; eauto. injection H as -> ->. eapply L. apply in_or_app. eauto.
Qed.
Lemma sorted_app_intro : forall a b, sorted a -> sorted b -> (forall k v k' v', In (k, v) a -> In (k', v') b -> kcmp k k' = Lt) -> sorted (a ++ b).
Proof.
  induction a as [|[k0 v0] a IH]; intros b Sa Sb H; cbn [app]; auto. apply sorted_inv in Sa. destruct Sa as [Sa L].
  apply sorted_cons; [apply IH; auto; intros; eapply H; eauto; right; eauto|]. intros k v Hi. apply in_app_or in Hi. destruct Hi; eauto. eapply H; eauto. left; auto.
Qed.
Lemma db_del_mid : forall lo k v hi, sorted (lo ++ (k, v) :: hi) -> db_del (lo ++ (k, v) :: hi) k = lo ++ hi.
Proof.
  intros lo k v hi S. apply sorted_app in S as H. destruct H as (A & B & C). apply sorted_inv in B. destruct B as [B L].
  apply db_ext; [apply db_del_sorted; auto|apply sorted_app_intro; auto; intros; eapply C; eauto; right; eauto|].
  intros k' v'. rewrite db_del_in by auto. rewrite !in_app_iff. cbn [In]. split.
  - intros [N [H|[H|H]]]; auto. injection H as -> ->. congruence.
  - intros [H|H].
    + split; auto. intros ->. eapply kcmp_lt_irrefl. eapply C; eauto. left. reflexivity.
    + split; auto. intros ->. eapply kcmp_lt_irrefl. eapply L; eauto.
Qed.

(** what a loop body is expected to do: update its state by [f], and keep or delete the current pair *)
Definition body_ok {S} (f : S -> list Z -> list Z -> S) (keep : list Z -> list Z -> bool) (needrw : bool) (body : S -> txn -> res (S * txn)) : Prop :=
  forall s t k v, ready t -> io_sane (t_io t) -> sorted (t_data t) -> t_cur t = CAt k -> t_ck t = k -> t_cv t = v ->
  exists t', body s t = Ok (f s k v, t') /\
  ((ready t' /\ t_cur t' = CAt k /\ t_data t' = (if keep k v then t_data t else db_del (t_data t) k) /\ t_rw t' = t_rw t /\ io_sane (t_io t') /\ (t_io t = [] -> t_io t' = [])) \/
   (t_ret t' <> KNOT_EOK /\ ~ (t_io t = [] /\ (needrw = true -> t_rw t = true)))).
(** the same for the pairs of which [P] holds *)
Definition body_ok_on {S} (P : list Z -> list Z -> Prop) (f : S -> list Z -> list Z -> S) (keep : list Z -> list Z -> bool) (needrw : bool) (body : S -> txn -> res (S * txn)) : Prop :=
  forall s t k v, P k v -> ready t -> io_sane (t_io t) -> sorted (t_data t) -> t_cur t = CAt k -> t_ck t = k -> t_cv t = v ->
  exists t', body s t = Ok (f s k v, t') /\
  ((ready t' /\ t_cur t' = CAt k /\ t_data t' = (if keep k v then t_data t else db_del (t_data t) k) /\ t_rw t' = t_rw t /\ io_sane (t_io t') /\ (t_io t = [] -> t_io t' = [])) \/
   (t_ret t' <> KNOT_EOK /\ ~ (t_io t = [] /\ (needrw = true -> t_rw t = true)))).
Lemma body_ok_any : forall S P (f : S -> list Z -> list Z -> S) keep needrw body, body_ok f keep needrw body -> body_ok_on P f keep needrw body.
Proof. intros S P f keep needrw body H s t k v _. apply H. Qed.
Definition matches (prefix : option (list Z)) (k : list Z) : bool := match prefix with Some p => is_prefix_of p k | None => true end.
Definition fold_kv {S} (f : S -> list Z -> list Z -> S) (l : db) (s : S) : S := fold_left (fun s x => f s (fst x) (snd x)) l s.
Definition keepf (keep : list Z -> list Z -> bool) : list Z * list Z -> bool := fun x => keep (fst x) (snd x).

Lemma loop_done : forall S fuel prefix body (s : S) t, (0 < fuel)%nat -> loop_from fuel prefix body false s t = Ok (s, t).
Proof. intros. destruct fuel; [lia|]. reflexivity. Qed.

Lemma next_spec : forall t b t' k lo hi, lmdb_next t = (b, t') -> ready t -> io_sane (t_io t) -> t_cur t = CAt k -> t_data t = lo ++ hi ->
  (forall k' v', In (k', v') lo -> kcmp k' k <> Gt) -> (forall k' v', In (k', v') hi -> kcmp k k' = Lt) ->
  t_data t' = t_data t /\ t_rw t' = t_rw t /\ io_sane (t_io t') /\ (t_io t = [] -> t_io t' = []) /\
  ((exists k' v' hi', b = true /\ hi = (k', v') :: hi' /\ ready t' /\ t_cur t' = CAt k' /\ t_ck t' = k' /\ t_cv t' = v') \/
   (b = false /\ hi = [] /\ ready t') \/ (b = false /\ t_ret t' <> KNOT_EOK /\ t_io t <> [])).
Proof.
  intros t b t' k lo hi H R S C D H1 H2. unfold lmdb_next in H. rewrite C in H. cbn [is_null andb] in H. rewrite semcheck_ready in H by auto. cbn [negb] in H.
  pose proof (curget_spec _ _ _ _ H S) as (D1 & O1 & W1 & S1 & C1 & I1). do 4 (split; [auto|]). cbn [mdb_lookup] in C1. rewrite C, D, db_geq_mid in C1 by auto.
  destruct R as [R1 R2]. destruct C1 as [(k' & v' & -> & A & B & E & F & G)|[(-> & A & B & _)|(-> & A & [B|[B _]])]]; [| | |discriminate].
  - left. destruct hi as [|[k0 v0] hi]; [discriminate|]. cbn [mdb_first] in B. injection B as -> ->. exists k', v', hi. repeat split; auto. congruence.
  - right. left. destruct hi as [|[k0 v0] hi]; [|discriminate]. repeat split; auto. congruence.
  - right. right. auto.
Qed.

Lemma loop_spec_on : forall S P (f : S -> list Z -> list Z -> S) keep needrw prefix body, body_ok_on P f keep needrw body ->
  forall m fuel s t k v lo post, (length m < fuel)%nat -> ready t -> io_sane (t_io t) -> sorted (t_data t) -> t_cur t = CAt k -> t_ck t = k -> t_cv t = v ->
  t_data t = lo ++ m ++ post -> match m ++ post with [] => False | x :: _ => x = (k, v) end ->
  (forall k' v', In (k', v') m -> P k' v') -> (forall k' v', In (k', v') m -> matches prefix k' = true) -> (match post with [] => True | (k', _) :: _ => matches prefix k' = false end) ->
  exists s' t', loop_from fuel prefix body true s t = Ok (s', t') /\
    ((ready t' /\ s' = fold_kv f m s /\ t_data t' = lo ++ filter (keepf keep) m ++ post /\ t_rw t' = t_rw t /\ io_sane (t_io t') /\ (t_io t = [] -> t_io t' = [])) \/
     (t_ret t' <> KNOT_EOK /\ ~ (t_io t = [] /\ (needrw = true -> t_rw t = true)))).
Proof.
  intros S P f keep needrw prefix body HB. induction m as [|[km vm] m IH]; intros fuel s t k v lo post Hf R Sa So C CK CV D HH HPP HM HP.
  - destruct fuel; [cbn [length] in Hf; lia|]. cbn [app] in *. destruct post as [|[kp vp] post]; [destruct HH|]. injection HH as -> ->.
    cbn [loop_from]. rewrite CK. unfold matches in HP. rewrite HP. cbn [andb]. exists s, t. split; auto. left. cbn [filter app fold_kv fold_left]. auto 10.
  - cbn [app] in HH. injection HH as -> ->. destruct fuel as [|fuel]; [lia|]. cbn [length] in Hf. cbn [loop_from]. rewrite CK.
    assert (Mk : matches prefix k = true) by (eapply HM; left; reflexivity). unfold matches in Mk. rewrite Mk. cbn [andb].
    destruct (HB s t k v (HPP k v (or_introl eq_refl)) R Sa So C CK CV) as (t1 & -> & H1). cbn [rbind]. destruct H1 as [(R1 & C1 & D1 & W1 & S1 & I1)|(X & Y)].
    2:{ rewrite next_dead by auto. rewrite loop_done by lia. exists (f s k v), (lmdb_abort t1). split; auto. right. rewrite abort_ret. auto. }
    cbn [app] in D. rewrite D in So.
    pose proof (sorted_app _ _ So) as (SA & SB & SC). pose proof (sorted_inv _ _ _ SB) as [SD SE].
    set (lo' := lo ++ (if keep k v then [(k, v)] else [])).
    assert (D1' : t_data t1 = lo' ++ (m ++ post)).
    { rewrite D1, D. unfold lo'. destruct (keep k v); [rewrite <- app_assoc; reflexivity|]. rewrite app_nil_r. apply db_del_mid; auto. }
    assert (So1 : sorted (t_data t1)). { rewrite D1. destruct (keep k v); rewrite D; auto. apply db_del_sorted; auto. }
    destruct (lmdb_next t1) as [b t2] eqn:En.
    assert (Hlo : forall k' v', In (k', v') lo' -> kcmp k' k <> Gt).
    { unfold lo'. intros k' v' Hi. apply in_app_or in Hi. destruct Hi as [Hi|Hi].
      - rewrite (SC k' v' k v); auto; [congruence|left; auto]. - destruct (keep k v); [|destruct Hi]. destruct Hi as [Hi|[]]. injection Hi as -> ->. rewrite kcmp_refl. congruence. }
    pose proof (next_spec t1 b t2 k lo' (m ++ post) En R1 S1 C1 D1' Hlo SE) as (D2 & W2 & S2 & I2 & [(k' & v' & hi' & -> & Eh & R2 & C2 & CK2 & CV2)|[(-> & Eh & R2)|(-> & X & Y)]]).
    + assert (So2 : sorted (t_data t2)) by (rewrite D2; auto). destruct (IH fuel (f s k v) t2 k' v' lo' post) as (s' & t' & E & H); auto; try lia; try congruence.
      * rewrite Eh. auto. * intros; eapply HPP; right; eauto. * intros; eapply HM; right; eauto.
      * exists s', t'. split; auto. destruct H as [(A & B & E1 & E2 & E3 & E4)|(A & B)].
        -- left. split; auto. split; [subst s'; reflexivity|]. split; [|split; [congruence|auto]]. rewrite E1. unfold lo'. cbn [filter]. unfold keepf at 2. cbn [fst snd].
           destruct (keep k v); [rewrite <- app_assoc; reflexivity|rewrite app_nil_r; reflexivity].
        -- right. split; auto. intros [Hn Hw]. apply B. split; auto. rewrite W2, W1. auto.
    + rewrite loop_done by lia. apply app_eq_nil in Eh. destruct Eh as [-> ->]. exists (f s k v), t2. split; auto. left. split; auto. split; [reflexivity|].
      split; [|split; [congruence|auto]]. rewrite D2, D1'. unfold lo'. cbn [filter]. unfold keepf. cbn [fst snd]. rewrite !app_nil_r. destruct (keep k v); auto.
    + rewrite loop_done by lia. exists (f s k v), t2. split; auto. right. split; auto. intros [Hn Hw]. auto.
Qed.

(** splitting the database around a prefix *)
Lemma split_matches : forall p d, sorted d -> (forall k v, In (k, v) d -> kcmp p k <> Gt) ->
  exists m post, d = m ++ post /\ m = filter (fun x => is_prefix_of p (fst x)) d /\ (forall k v, In (k, v) m -> is_prefix_of p k = true) /\
  (match post with [] => True | (k', _) :: _ => is_prefix_of p k' = false end) /\ (forall k v, In (k, v) post -> is_prefix_of p k = false).
Proof.
  induction d as [|[k v] d IH]; intros S H.
  - exists [], []. split; [auto|]. split; [auto|]. split; [intros k v []|]. split; [auto|]. intros k v [].
  - pose proof (sorted_inv _ _ _ S) as [S' L]. destruct (is_prefix_of p k) eqn:E.
    + destruct IH as (m & post & D & F & M & P & Q); auto. { intros; eapply H; right; eauto. }
      exists ((k, v) :: m), post. split; [cbn [app]; congruence|]. split; [cbn [filter fst]; rewrite E; congruence|]. split; [|split; auto].
      intros k' v' [Hi|Hi]; [injection Hi as -> ->; auto|eauto].
    + assert (Q : forall k' v', In (k', v') ((k, v) :: d) -> is_prefix_of p k' = false).
      { intros k' v' [Hi|Hi]; [injection Hi as -> ->; auto|]. destruct (is_prefix_of p k') eqn:E'; auto. rewrite (prefix_convex p k k') in E; try congruence.
        - eapply H. left. reflexivity. - apply L in Hi. congruence. }
      exists [], ((k, v) :: d). split; [auto|]. split.
      * symmetry. destruct (filter (fun x => is_prefix_of p (fst x)) ((k, v) :: d)) as [|[a b] l] eqn:Ef; auto. exfalso.
        assert (Hi : In (a, b) ((a, b) :: l)) by (left; auto). rewrite <- Ef in Hi. apply filter_In in Hi. destruct Hi as [Hi Hp]. cbn [fst] in Hp. rewrite (Q a b Hi) in Hp. discriminate.
      * split; [intros k' v' []|]. split; auto.
Qed.
Lemma filter_none : forall A (p : A -> bool) l, (forall x, In x l -> p x = false) -> filter p l = [].
Proof. induction l as [|x l IH]; intros H; auto. cbn [filter]. rewrite (H x) by (left; auto). apply IH. intros; apply H; right; auto. Qed.
Lemma filter_all : forall A (p : A -> bool) l, (forall x, In x l -> p x = true) -> filter p l = l.
Proof. induction l as [|x l IH]; intros H; auto. cbn [filter]. rewrite (H x) by (left; auto). f_equal. apply IH. intros; apply H; right; auto. Qed.

Definition inp (p : list Z) : list Z * list Z -> bool := fun x => is_prefix_of p (fst x).
(** the pairs left by a loop over [p] that deletes those rejected by [keep] *)
Definition kept (sel : list Z * list Z -> bool) (keep : list Z -> list Z -> bool) (d : db) : db := filter (fun x => negb (sel x) || keepf keep x) d.

Lemma foreach_spec_on : forall S P (f : S -> list Z -> list Z -> S) keep needrw body p, body_ok_on P f keep needrw body -> 
  forall fuel s t, (length (t_data t) < fuel)%nat -> ready t -> io_sane (t_io t) -> sorted (t_data t) -> (forall k v, In (k, v) (t_data t) -> is_prefix_of p k = true -> P k v) ->
  exists s' t', foreach fuel p body s t = Ok (s', t') /\
    ((ready t' /\ s' = fold_kv f (filter (inp p) (t_data t)) s /\ t_data t' = kept (inp p) keep (t_data t) /\ t_rw t' = t_rw t /\ io_sane (t_io t') /\ (t_io t = [] -> t_io t' = [])) \/
     (t_ret t' <> KNOT_EOK /\ ~ (t_io t = [] /\ p <> [] /\ (needrw = true -> t_rw t = true)))).
Proof.
  intros S P f keep needrw body p HB fuel s t Hf R Sa So HPP. unfold foreach. destruct (lmdb_find t (Some p) GEQ false) as [b t1] eqn:Ef.
  pose proof (find_spec _ _ _ _ _ _ Ef R Sa So) as (D1 & W1 & S1 & I1 & N1 & T1 & F1 & _).
  destruct b.
  - destruct (T1 eq_refl) as (R1 & C1 & [Hi [H1 H2]]). set (k := t_ck t1) in *. set (v := t_cv t1) in *.
    apply in_split in Hi. destruct Hi as (lo & hi & D). pose proof So as So'. rewrite D in So'. pose proof (sorted_app _ _ So') as (SA & SB & SC).
    assert (Hge : forall k' v', In (k', v') ((k, v) :: hi) -> kcmp p k' <> Gt).
    { intros k' v' [Hi|Hi]; [injection Hi as <- <-; auto|]. pose proof (sorted_inv _ _ _ SB) as [_ L]. apply L in Hi. eapply kcmp_le_trans; eauto. congruence. }
    assert (Hlo : forall k' v', In (k', v') lo -> is_prefix_of p k' = false).
    { intros k' v' Hi. destruct (is_prefix_of p k') eqn:E; auto. exfalso. apply prefix_geq in E. assert (Hc : kcmp k k' <> Gt). { eapply H2; eauto. rewrite D. apply in_or_app. eauto. }
      assert (kcmp k' k = Lt) by (eapply SC; eauto; left; reflexivity). apply kcmp_gt_lt in H. congruence. }
    destruct (split_matches p _ SB Hge) as (m & post & Em & Fm & Mm & Pm & Qm).
    assert (FF : filter (inp p) (t_data t) = m).
    { rewrite D, filter_app. rewrite (filter_none _ _ lo); [|intros [a b] Hi; apply (Hlo a b Hi)]. cbn [app]. symmetry. exact Fm. }
    assert (FK : kept (inp p) keep (t_data t) = lo ++ filter (keepf keep) m ++ post).
    { rewrite D, Em. unfold kept. rewrite !filter_app. f_equal; [|f_equal].
      - apply filter_all. intros [a b] Hi. unfold inp. cbn [fst]. rewrite (Hlo a b Hi). auto.
      - apply filter_ext_in. intros [a b] Hi. unfold inp. cbn [fst]. rewrite (Mm a b Hi). auto.
      - apply filter_all. intros [a b] Hi. unfold inp. cbn [fst]. rewrite (Qm a b Hi). auto. }
    destruct (loop_spec_on S P f keep needrw (Some p) body HB m fuel s t1 k v lo post) as (s' & t' & E & H); auto.
    + assert (length m <= length (t_data t))%nat. { rewrite <- FF. clear. induction (t_data t); cbn [filter length]; auto. destruct (inp p a); cbn [length]; lia. } lia.
    + rewrite D1; auto.
    + rewrite D1, D, Em. auto.
    + rewrite <- Em. auto.
    + intros k' v' Hi. apply HPP; [|eauto]. rewrite D, Em. apply in_or_app. right. apply in_or_app. left. exact Hi.
    + exists s', t'. split; auto. destruct H as [(A & B & E1 & E2 & E3 & E4)|(A & B)].
      * left. rewrite FF, FK. split; auto. split; auto. split; auto. split; [congruence|]. auto.
      * right. split; auto. intros (Hn & _ & Hw). apply B. split; auto. rewrite W1. auto.
  - rewrite loop_done by lia. exists s, t1. split; auto. destruct (Z.eq_dec (t_ret t1) KNOT_EOK) as [E|E].
    + destruct (F1 eq_refl E) as (O1 & C1 & _ & M). left. split; [split; auto|].
      assert (Hn : forall x, In x (t_data t) -> inp p x = false).
      { intros [a b] Hi. unfold inp. cbn [fst]. destruct (is_prefix_of p a) eqn:Ep; auto. apply prefix_geq in Ep. apply M in Hi. congruence. }
      rewrite (filter_none _ _ _ Hn). split; [reflexivity|]. split; [|auto]. rewrite D1. symmetry. unfold kept. apply filter_all. intros x Hi. rewrite (Hn x Hi). auto.
    + right. split; auto. intros (Hn & Hp & _). apply E. apply N1; auto.
Qed.

Lemma loop_spec : forall S (f : S -> list Z -> list Z -> S) keep needrw prefix body, body_ok f keep needrw body ->
  forall m fuel s t k v lo post, (length m < fuel)%nat -> ready t -> io_sane (t_io t) -> sorted (t_data t) -> t_cur t = CAt k -> t_ck t = k -> t_cv t = v ->
  t_data t = lo ++ m ++ post -> match m ++ post with [] => False | x :: _ => x = (k, v) end ->
  (forall k' v', In (k', v') m -> matches prefix k' = true) -> (match post with [] => True | (k', _) :: _ => matches prefix k' = false end) ->
  exists s' t', loop_from fuel prefix body true s t = Ok (s', t') /\
    ((ready t' /\ s' = fold_kv f m s /\ t_data t' = lo ++ filter (keepf keep) m ++ post /\ t_rw t' = t_rw t /\ io_sane (t_io t') /\ (t_io t = [] -> t_io t' = [])) \/
     (t_ret t' <> KNOT_EOK /\ ~ (t_io t = [] /\ (needrw = true -> t_rw t = true)))).
Proof. intros S f keep needrw prefix body HB m fuel s t k v lo post. intros. apply (loop_spec_on S (fun _ _ => True) f keep needrw prefix body (body_ok_any _ _ _ _ _ _ HB) m fuel s t k v lo post); auto. Qed.
Lemma foreach_spec : forall S (f : S -> list Z -> list Z -> S) keep needrw body p, body_ok f keep needrw body -> 
  forall fuel s t, (length (t_data t) < fuel)%nat -> ready t -> io_sane (t_io t) -> sorted (t_data t) ->
  exists s' t', foreach fuel p body s t = Ok (s', t') /\
    ((ready t' /\ s' = fold_kv f (filter (inp p) (t_data t)) s /\ t_data t' = kept (inp p) keep (t_data t) /\ t_rw t' = t_rw t /\ io_sane (t_io t') /\ (t_io t = [] -> t_io t' = [])) \/
     (t_ret t' <> KNOT_EOK /\ ~ (t_io t = [] /\ p <> [] /\ (needrw = true -> t_rw t = true)))).
Proof. intros S f keep needrw body p HB fuel s t. intros. apply (foreach_spec_on S (fun _ _ => True) f keep needrw body p (body_ok_any _ _ _ _ _ _ HB) fuel s t); auto. Qed.

Lemma first_spec : forall t b t', lmdb_first t = (b, t') -> ready t -> io_sane (t_io t) ->
  t_data t' = t_data t /\ t_rw t' = t_rw t /\ io_sane (t_io t') /\ (t_io t = [] -> t_io t' = []) /\
  ((exists k v hi, b = true /\ t_data t = (k, v) :: hi /\ ready t' /\ t_cur t' = CAt k /\ t_ck t' = k /\ t_cv t' = v) \/
   (b = false /\ t_data t = [] /\ ready t') \/ (b = false /\ t_ret t' <> KNOT_EOK /\ t_io t <> [])).
Proof.
  intros t b t' H R S. unfold lmdb_first in H. rewrite semcheck_ready in H by auto. cbn [negb] in H.
  destruct (init_cursor t) as [ok t1] eqn:Ei. pose proof (init_cursor_spec _ _ _ Ei R S) as (D1 & W1 & S1 & N1 & C1).
  destruct ok; cbn [negb] in H.
  2:{ injection H as <- <-. do 3 (split; [auto|]). split; [intros Hn; destruct (N1 Hn); congruence|]. right. right. split; auto. split; auto. intros Hn. destruct (N1 Hn). discriminate. }
  destruct C1 as [[R1 R2] C1]. pose proof (curget_spec _ _ _ _ H S1) as (D2 & O2 & W2 & S2 & C2 & I2). do 2 (split; [congruence|]). split; auto. split; [intros Hn; destruct (N1 Hn); auto|].
  cbn [mdb_lookup] in C2. rewrite D1 in C2. destruct C2 as [(k' & v' & -> & A & B & E & F & G)|[(-> & A & B & _)|(-> & A & [B|[B _]])]]; [| | |discriminate].
  - left. destruct (t_data t) as [|[k0 v0] hi]; [discriminate|]. cbn [mdb_first] in B. injection B as -> ->. exists k', v', hi. repeat split; auto. congruence.
  - right. left. destruct (t_data t) as [|[k0 v0] hi]; [|discriminate]. repeat split; auto. congruence.
  - right. right. split; auto. split; auto. intros Hn. destruct (N1 Hn). auto.
Qed.
Lemma forwhole_spec : forall S (f : S -> list Z -> list Z -> S) keep needrw body, body_ok f keep needrw body ->
  forall fuel s t, (length (t_data t) < fuel)%nat -> ready t -> io_sane (t_io t) -> sorted (t_data t) ->
  exists s' t', forwhole fuel body s t = Ok (s', t') /\
    ((ready t' /\ s' = fold_kv f (t_data t) s /\ t_data t' = filter (keepf keep) (t_data t) /\ t_rw t' = t_rw t /\ io_sane (t_io t') /\ (t_io t = [] -> t_io t' = [])) \/
     (t_ret t' <> KNOT_EOK /\ ~ (t_io t = [] /\ (needrw = true -> t_rw t = true)))).
Proof.
  intros S f keep needrw body HB fuel s t Hf R Sa So. unfold forwhole. destruct (lmdb_first t) as [b t1] eqn:Ef.
  pose proof (first_spec _ _ _ Ef R Sa) as (D1 & W1 & S1 & I1 & [(k & v & hi & -> & D & R1 & C1 & CK & CV)|[(-> & D & R1)|(-> & X & Y)]]).
  - destruct (loop_spec S f keep needrw None body HB (t_data t) fuel s t1 k v [] []) as (s' & t' & E & H); auto.
    + rewrite D1; auto. + rewrite D1, app_nil_r; auto. + rewrite D. cbn [app]. auto.
    + exists s', t'. split; auto. rewrite app_nil_r in H. cbn [app] in H. destruct H as [(A & B & E1 & E2 & E3 & E4)|(A & B)].
      * left. split; auto. split; auto. split; auto. split; [congruence|]. auto.
      * right. split; auto. intros (Hn & Hw). apply B. split; auto. rewrite W1. auto.
  - rewrite loop_done by lia. exists s, t1. split; auto. left. rewrite D, D1, D. auto 10.
  - rewrite loop_done by lia. exists s, t1. split; auto. right. split; auto. tauto.
Qed.

(** the two kinds of bodies used in the code *)
Definition body_del (keep : list Z -> list Z -> bool) (s : unit) (t : txn) : res (unit * txn) :=
  if keep (t_ck t) (t_cv t) then Ok (tt, t) else let* t := lmdb_del_cur t in Ok (tt, t).
Lemma del_cur_spec : forall t k, ready t -> io_sane (t_io t) -> t_cur t = CAt k ->
  exists t', lmdb_del_cur t = Ok t' /\ ((ready t' /\ t_cur t' = CAt k /\ t_data t' = db_del (t_data t) k /\ t_rw t' = t_rw t /\ io_sane (t_io t') /\ (t_io t = [] -> t_io t' = [])) \/
   (t_ret t' <> KNOT_EOK /\ ~ (t_io t = [] /\ t_rw t = true))).
Proof.
  intros t k R S C. unfold lmdb_del_cur. rewrite semcheck_ready by auto. cbn [negb]. rewrite C. unfold mdb_cursor_del. destruct (io_next (t_io t)) as [e io] eqn:Ei.
  destruct (io_next_sane _ _ _ S Ei) as (S' & N1 & N2 & N3 & N4). destruct R as [R1 R2].
  destruct (e =? 0) eqn:E0; cbn [negb].
  - cbn [set_io t_rw t_cur]. destruct (t_rw t) eqn:Ew; cbn [negb].
    + rewrite C. eexists. split; [reflexivity|]. left. unfold ready. cbn [set_ret set_data set_io t_opened t_ret t_cur t_data t_rw t_io]. change (err_to_knot 0) with KNOT_EOK.
      repeat split; auto. intros Hn. destruct (N4 Hn). auto.
    + eexists. split; [reflexivity|]. right. cbn [set_ret t_ret]. change (err_to_knot EACCES) with (-13). split; [unfold KNOT_EOK; lia|]. intros [_ Hw]. congruence.
  - eexists. split; [reflexivity|]. right. cbn [set_ret t_ret]. split; [intros Hc; apply (proj1 (err_to_knot_0 e)) in Hc; lia|]. intros [Hn _]. destruct (N4 Hn). lia.
Qed.
Lemma body_del_ok : forall keep, body_ok (fun s _ _ => s) keep true (body_del keep).
Proof.
  intros keep s t k v R S So C CK CV. unfold body_del. rewrite CK, CV. destruct s. destruct (keep k v) eqn:E.
  - exists t. split; auto. left. repeat split; auto; apply R.
  - destruct (del_cur_spec t k R S C) as (t' & -> & H). cbn [rbind]. exists t'. split; auto. destruct H as [H|[H1 H2]]; [left; auto|right]. split; auto. intros [Hn Hw]. auto.
Qed.
Definition body_read {S} (f : S -> list Z -> list Z -> S) (s : S) (t : txn) : res (S * txn) := Ok (f s (t_ck t) (t_cv t), t).
Lemma body_read_ok : forall S (f : S -> list Z -> list Z -> S), body_ok f (fun _ _ => true) false (body_read f).
Proof.
  intros S f s t k v R Sa So C CK CV. unfold body_read. rewrite CK, CV. exists t. split; auto. left. repeat split; auto; apply R.
Qed.
