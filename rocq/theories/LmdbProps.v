(** C53: the key-value store used for the journal, the timers and the keys. A database is the set of
    its pairs ([In (k, v) d]); [sorted] says that keys are unique and in LMDB's order. *)
From Verif Require Import Base WireModel WireProofs WireProps DnameModel DnameSpec DnameProofs DnameProofs2 LmdbModel LmdbProofs LmdbProofs2.
From Coq Require Import Sorting.Sorted.

(** ** Operations on an open transaction *)
Inductive lop : Type := OFind (w : list Z) (how : find_how) (force : bool) | OFirst | ONext | ODel | OInsert (k v : list Z) | ODelPrefix (p : list Z).
Definition lexec1 (o : lop) (t : txn) : res txn :=
  match o with
  | OFind w how force => Ok (snd (lmdb_find t (Some w) how force))
  | OFirst => Ok (snd (lmdb_first t))
  | ONext => Ok (snd (lmdb_next t))
  | ODel => lmdb_del_cur t
  | OInsert k v => Ok (snd (lmdb_insert t (Some k) v))
  | ODelPrefix p => lmdb_del_prefix (S (length (t_data t))) t p
  end.
Fixpoint lexec (os : list lop) (t : txn) : res txn := match os with [] => Ok t | o :: os => let* t := lexec1 o t in lexec os t end.

(** the same run without failures *)
Definition quiet (t : txn) : txn := set_io t [].
Definition sim {A} (r : A * txn) (r0 : A * txn) : Prop := t_ret (snd r) <> KNOT_EOK \/ (fst r0 = fst r /\ snd r0 = quiet (snd r)).

Lemma sim_curget : forall t op, io_sane (t_io t) -> sim (curget t op) (curget (quiet t) op) /\ io_sane (t_io (snd (curget t op))).
Proof.
  intros t op S. destruct (curget t op) as [b t'] eqn:E. pose proof (curget_spec _ _ _ _ E S) as (_ & _ & _ & S' & _). split; auto.
  unfold curget, mdb_cursor_get in *. cbn [quiet set_io t_io io_next]. destruct (io_next (t_io t)) as [e io] eqn:Ei.
  destruct (io_next_sane _ _ _ S Ei) as (_ & N1 & N2 & N3 & _). change (0 =? 0) with true. cbn [negb]. destruct (e =? 0) eqn:E0; cbn [negb] in E.
  - right. cbn [set_io t_ck t_data] in E. change (t_ck (set_io (quiet t) [])) with (t_ck t). change (t_ck (quiet t)) with (t_ck t). destruct (is_set op && (zlen (t_ck t) =? 0)).
    + injection E as <- <-. auto.
    + assert (L : mdb_lookup (set_io t io) op = mdb_lookup t op) by (destruct op; reflexivity).
      assert (L0 : mdb_lookup (set_io (quiet t) []) op = mdb_lookup t op) by (destruct op; reflexivity).
      rewrite L0. rewrite L in E. destruct (mdb_lookup t op) as [[k v]|]; injection E as <- <-; auto.
      destruct (is_set op); auto.
  - left. assert (Hn : err_to_knot e <> KNOT_ENOENT). { intros Hc. apply err_to_knot_noent in Hc. destruct Hc as [Hc|[Hc|Hc]]; congruence. }
    assert (He : err_to_knot e <> KNOT_EOK). { intros Hc. apply (proj1 (err_to_knot_0 e)) in Hc. lia. }
    replace (err_to_knot e =? KNOT_ENOENT) with false in E by lia. injection E as <- <-. auto.
Qed.

(** [live t]: the transaction is still usable or has already failed, and no failure is an ENOENT *)
Lemma notready : forall t, ~ ready t -> t_ret (snd (txn_semcheck t)) <> KNOT_EOK /\ fst (txn_semcheck t) = false /\ t_io (snd (txn_semcheck t)) = t_io t.
Proof.
  intros t H. unfold txn_semcheck. destruct (t_opened t) eqn:Eo; cbn [negb andb].
  - assert (t_ret t <> KNOT_EOK) by (intros Hc; apply H; split; auto). replace (t_ret t =? KNOT_EOK) with false by lia. cbn [negb fst snd]. rewrite abort_ret, abort_io. auto.
  - destruct (t_ret t =? KNOT_EOK) eqn:E; cbn [set_ret t_ret].
    + change (KNOT_ESEMCHECK =? KNOT_EOK) with false. cbn [negb fst snd]. rewrite abort_ret, abort_io. cbn [set_ret t_ret]. repeat split; auto. unfold KNOT_ESEMCHECK, KNOT_EOK. lia.
    + rewrite E. cbn [negb fst snd]. rewrite abort_ret, abort_io. repeat split; auto. lia.
Qed.
Lemma ready_dec : forall t, ready t \/ ~ ready t.
Proof. intros t. unfold ready. destruct (t_opened t); destruct (Z.eq_dec (t_ret t) KNOT_EOK); tauto || (right; intros [? ?]; congruence). Qed.
Lemma ready_quiet : forall t, ready t -> ready (quiet t).
Proof. intros t [A B]. split; auto. Qed.
Lemma sim_init : forall t, ready t -> io_sane (t_io t) -> sim (init_cursor t) (init_cursor (quiet t)) /\ io_sane (t_io (snd (init_cursor t))).
Proof.
  intros t R S. unfold init_cursor. cbn [quiet set_io t_cur t_io io_next]. destruct (t_cur t); [|split; [right; auto|auto]..].
  destruct (io_next (t_io t)) as [e io] eqn:Ei. destruct (io_next_sane _ _ _ S Ei) as (S' & _). cbn [set_ret t_ret set_io]. change (err_to_knot 0 =? KNOT_EOK) with true. cbn [negb].
  destruct (err_to_knot e =? KNOT_EOK) eqn:E; cbn [negb].
  - assert (e = 0) by (apply err_to_knot_0; lia). subst. split; auto. right. cbn [fst snd]. auto.
  - split; [left; cbn [snd]; rewrite abort_ret; cbn [set_ret set_io t_ret]; lia|]. cbn [snd]. rewrite abort_io. auto.
Qed.
Lemma sim_find_body : forall t w how, io_sane (t_io t) -> sim (find_body t w how) (find_body (quiet t) w how) /\ io_sane (t_io (snd (find_body t w how))).
Proof.
  intros t w how S. unfold find_body. cbv zeta. set (op := match how with EXACT => MDB_SET | _ => MDB_SET_RANGE end).
  change (set_ckv (quiet t) w []) with (quiet (set_ckv t w [])). destruct (sim_curget (set_ckv t w []) op S) as [C S1].
  destruct (curget (set_ckv t w []) op) as [b t1] eqn:E1. destruct (curget (quiet (set_ckv t w [])) op) as [b0 t10]. unfold sim in C. cbn [fst snd] in *.
  destruct C as [D|[-> ->]].
  - destruct how; cbn [snd]; [split; [left; auto|auto]| |split; [left; auto|auto]]. replace (t_ret t1 =? KNOT_EOK) with false by lia. split; [left; auto|auto].
  - destruct how; [split; [right; auto|auto]| |split; [right; auto|auto]]. change (t_ret (quiet t1)) with (t_ret t1). change (t_ck (quiet t1)) with (t_ck t1).
    destruct (t_ret t1 =? KNOT_EOK); [|split; [right; auto|auto]]. destruct b; [destruct (kcmp (t_ck t1) w); [split; [right; auto|auto]|apply sim_curget; auto..]|apply sim_curget; auto].
Qed.
Lemma sim_find : forall t w how force, io_sane (t_io t) -> sim (lmdb_find t (Some w) how force) (lmdb_find (quiet t) (Some w) how force) /\
  io_sane (t_io (snd (lmdb_find t (Some w) how force))).
Proof.
  intros t w how force S. destruct (ready_dec t) as [R|R].
  - unfold lmdb_find. rewrite (semcheck_ready t R), (semcheck_ready _ (ready_quiet t R)). cbn [negb].
    destruct (sim_init t R S) as [C S1]. destruct (init_cursor t) as [ok t1] eqn:Ei. destruct (init_cursor (quiet t)) as [ok0 t10] eqn:Ei0. unfold sim in C. cbn [fst snd] in *.
    pose proof (init_cursor_spec _ _ _ Ei R S) as (_ & _ & _ & _ & Hb). destruct C as [D|[-> ->]].
    + destruct ok; [destruct Hb as [[_ Hb] _]; congruence|]. cbn [negb]. split; [left; auto|auto].
    + destruct ok; cbn [negb]; [|split; [right; auto|auto]]. destruct (sim_find_body t1 w how S1) as [C2 S2]. destruct (find_body t1 w how) as [b2 t2]. destruct (find_body (quiet t1) w how) as [b20 t20].
      unfold sim in C2. cbn [fst snd] in *. destruct C2 as [D|[-> ->]].
      * replace (t_ret t2 =? KNOT_EOK) with false by lia. rewrite andb_false_r. split; [left; auto|auto].
      * change (t_ret (quiet t2)) with (t_ret t2). destruct (force && negb b2 && (t_ret t2 =? KNOT_EOK)); split; auto; right; auto.
  - pose proof (notready t R) as (A & B & C). unfold lmdb_find. destruct (txn_semcheck t) as [ok t1]. cbn [fst snd] in *. subst ok. cbn [negb snd]. split; [left; auto|rewrite C; auto].
Qed.
Lemma sim_first : forall t, io_sane (t_io t) -> sim (lmdb_first t) (lmdb_first (quiet t)) /\ io_sane (t_io (snd (lmdb_first t))).
Proof.
  intros t S. destruct (ready_dec t) as [R|R].
  - unfold lmdb_first. rewrite (semcheck_ready t R), (semcheck_ready _ (ready_quiet t R)). cbn [negb].
    destruct (sim_init t R S) as [C S1]. destruct (init_cursor t) as [ok t1] eqn:Ei. destruct (init_cursor (quiet t)) as [ok0 t10] eqn:Ei0. unfold sim in C. cbn [fst snd] in *.
    pose proof (init_cursor_spec _ _ _ Ei R S) as (_ & _ & _ & _ & Hb). destruct C as [D|[-> ->]].
    + destruct ok; [destruct Hb as [[_ Hb] _]; congruence|]. cbn [negb]. split; [left; auto|auto].
    + destruct ok; cbn [negb]; [|split; [right; auto|auto]]. apply sim_curget; auto.
  - pose proof (notready t R) as (A & B & C). unfold lmdb_first. destruct (txn_semcheck t) as [ok t1]. cbn [fst snd] in *. subst ok. cbn [negb snd]. split; [left; auto|rewrite C; auto].
Qed.
Lemma sim_next : forall t, io_sane (t_io t) -> sim (lmdb_next t) (lmdb_next (quiet t)) /\ io_sane (t_io (snd (lmdb_next t))).
Proof.
  intros t S. unfold lmdb_next. change (is_null (t_cur (quiet t)) && (t_ret (quiet t) =? KNOT_EOK)) with (is_null (t_cur t) && (t_ret t =? KNOT_EOK)).
  destruct (is_null (t_cur t) && (t_ret t =? KNOT_EOK)).
  - rewrite (semcheck_dead (set_ret t KNOT_EINVAL)) by (cbn [set_ret t_ret]; unfold KNOT_EINVAL, KNOT_EOK; lia). cbn [negb snd]. split; [left; cbn [snd]; rewrite abort_ret; cbn [set_ret t_ret]; unfold KNOT_EINVAL, KNOT_EOK; lia|rewrite abort_io; auto].
  - destruct (ready_dec t) as [R|R].
    + rewrite (semcheck_ready t R), (semcheck_ready _ (ready_quiet t R)). cbn [negb]. apply sim_curget; auto.
    + pose proof (notready t R) as (A & B & C). destruct (txn_semcheck t) as [ok t1]. cbn [fst snd] in *. subst ok. cbn [negb snd]. split; [left; auto|rewrite C; auto].
Qed.
Lemma sim_insert : forall t k v, io_sane (t_io t) -> sim (lmdb_insert t (Some k) v) (lmdb_insert (quiet t) (Some k) v) /\ io_sane (t_io (snd (lmdb_insert t (Some k) v))).
Proof.
  intros t k v S. unfold lmdb_insert. destruct (ready_dec t) as [R|R].
  - rewrite (semcheck_ready t R), (semcheck_ready _ (ready_quiet t R)). cbn [negb]. unfold mdb_put. cbn [quiet set_io t_io io_next]. destruct (io_next (t_io t)) as [e io] eqn:Ei.
    destruct (io_next_sane _ _ _ S Ei) as (S' & _). change (0 =? 0) with true. cbn [negb]. destruct (e =? 0) eqn:E0; cbn [negb].
    + cbn [quiet set_io t_rw]. destruct (t_rw t); cbn [negb]; [destruct ((zlen k =? 0) || (zlen k >? LMDB_MAXKEY))|]; (split; [right; auto|auto]).
    + split; [left|auto]. cbn [set_ret snd t_ret]. intros Hc. apply (proj1 (err_to_knot_0 e)) in Hc. lia.
  - pose proof (notready t R) as (A & B & C). destruct (txn_semcheck t) as [ok t1]. cbn [fst snd] in *. subst ok. cbn [negb snd]. split; [left; auto|rewrite C; auto].
Qed.
Definition simr (r r0 : res txn) : Prop := forall t, r = Ok t -> io_sane (t_io t) /\ (t_ret t <> KNOT_EOK \/ r0 = Ok (quiet t)).
Lemma sim_del : forall t, io_sane (t_io t) -> simr (lmdb_del_cur t) (lmdb_del_cur (quiet t)).
Proof.
  intros t S t' H. unfold lmdb_del_cur in *. destruct (ready_dec t) as [R|R].
  - rewrite (semcheck_ready t R) in H. rewrite (semcheck_ready _ (ready_quiet t R)). cbn [negb] in *. cbn [quiet set_io t_cur]. destruct (t_cur t) eqn:Ec; [discriminate|..];
      unfold mdb_cursor_del in *; cbn [quiet set_io t_io io_next]; (destruct (io_next (t_io t)) as [e io] eqn:Ei);
      destruct (io_next_sane _ _ _ S Ei) as (S' & _); change (0 =? 0) with true; cbn [negb]; (destruct (e =? 0) eqn:E0; cbn [negb] in *;
      [cbn [quiet set_io t_rw t_cur] in *; rewrite ?Ec in H; rewrite ?Ec; destruct (t_rw t); cbn [negb] in *; injection H as <-; split; auto
      |injection H as <-; split; auto; left; cbn [set_ret t_ret]; intros Hc; apply (proj1 (err_to_knot_0 e)) in Hc; lia]).
  - pose proof (notready t R) as (A & B & C). destruct (txn_semcheck t) as [ok t1]. cbn [fst snd] in *. subst ok. cbn [negb] in H. injection H as <-. rewrite C. auto.
Qed.
Lemma sim_delloop : forall fuel p found t t' u, io_sane (t_io t) ->
  loop_from fuel (Some p) (fun (_ : unit) t => let* t := lmdb_del_cur t in Ok (tt, t)) found tt t = Ok (u, t') ->
  io_sane (t_io t') /\ (t_ret t' <> KNOT_EOK \/ loop_from fuel (Some p) (fun (_ : unit) t => let* t := lmdb_del_cur t in Ok (tt, t)) found tt (quiet t) = Ok (u, quiet t')).
Proof.
  induction fuel as [|fuel IH]; intros p found t t' u S H; cbn [loop_from] in *; [discriminate|]. change (t_ck (quiet t)) with (t_ck t).
  destruct (found && is_prefix_of p (t_ck t)).
  - destruct (lmdb_del_cur t) as [t1| | |] eqn:Ed; cbn [rbind] in H; try discriminate. destruct (sim_del t S t1 Ed) as [S1 C1].
    destruct (sim_next t1 S1) as [C2 S2]. destruct (lmdb_next t1) as [b t2] eqn:En. cbn [snd] in S2.
    destruct C1 as [D|E].
    + rewrite next_dead in En by auto. injection En as <- <-. destruct fuel; [discriminate|]. cbn [loop_from andb] in H. injection H as <- <-. split; auto. left. rewrite abort_ret. auto.
    + rewrite E. cbn [rbind]. destruct (lmdb_next (quiet t1)) as [b0 t20]. unfold sim in C2. cbn [fst snd] in C2. destruct C2 as [D|[-> ->]]; [|apply IH; auto].
      assert (b = false). { unfold lmdb_next in En. destruct (is_null (t_cur t1) && (t_ret t1 =? KNOT_EOK)).
        - rewrite semcheck_dead in En by (cbn [set_ret t_ret]; unfold KNOT_EINVAL, KNOT_EOK; lia). cbn [negb] in En. congruence.
        - destruct (txn_semcheck t1) as [ok tt1] eqn:Es. destruct ok; cbn [negb] in En; [|congruence].
          unfold curget in En. destruct (mdb_cursor_get tt1 MDB_NEXT) as [e tx]. destruct (err_to_knot e =? KNOT_ENOENT); injection En as <- <-; cbn [set_ret t_ret] in D; lia. }
      subst b. destruct fuel; [discriminate|]. cbn [loop_from andb] in H. injection H as <- <-. auto.
  - injection H as <- <-. auto.
Qed.
Lemma sim_lexec1 : forall o t, io_sane (t_io t) -> simr (lexec1 o t) (lexec1 o (quiet t)).
Proof.
  intros [w how force| | | |k v|p] t S t' H; cbn [lexec1] in *.
  - destruct (sim_find t w how force S) as [C S1]. injection H as <-. split; auto. destruct C as [D|[_ ->]]; auto.
  - destruct (sim_first t S) as [C S1]. injection H as <-. split; auto. destruct C as [D|[_ ->]]; auto.
  - destruct (sim_next t S) as [C S1]. injection H as <-. split; auto. destruct C as [D|[_ ->]]; auto.
  - apply (sim_del t S t' H).
  - destruct (sim_insert t k v S) as [C S1]. injection H as <-. split; auto. destruct C as [D|[_ ->]]; auto.
  - unfold lmdb_del_prefix, foreach in *. change (t_data (quiet t)) with (t_data t). set (fuel := Datatypes.S (length (t_data t))) in *.
    destruct (sim_find t p GEQ false S) as [C S1]. destruct (lmdb_find t (Some p) GEQ false) as [b t1] eqn:Ef. destruct (lmdb_find (quiet t) (Some p) GEQ false) as [b0 t10].
    unfold sim in C. cbn [fst snd] in *.
    destruct (loop_from fuel (Some p) _ b tt t1) as [[u t2]| | |] eqn:El; cbn [rbind] in H; try discriminate. injection H as <-.
    destruct (sim_delloop _ _ _ _ _ _ S1 El) as [S2 C2]. split; auto. destruct C as [D|[-> ->]].
    + left. assert (Hd : forall fl f t u t2, t_ret t <> KNOT_EOK -> loop_from fl (Some p) (fun (_ : unit) t => let* t := lmdb_del_cur t in Ok (tt, t)) f tt t = Ok (u, t2) -> t_ret t2 <> KNOT_EOK).
      { clear. intros [|[|fl]] f t u t2 D H; cbn [loop_from] in H; try discriminate; (destruct (f && is_prefix_of p (t_ck t)); [|congruence]); rewrite del_dead in H by auto; cbn [rbind] in H;
        rewrite next_dead in H by (rewrite abort_ret; auto); try discriminate. cbn [loop_from andb] in H. injection H as <- <-. rewrite !abort_ret. auto. }
      eapply Hd; eauto.
    + destruct C2 as [D|E2]; auto. rewrite E2. cbn [rbind]. auto.
Qed.
Lemma dead_lexec : forall os t t', t_ret t <> KNOT_EOK -> lexec os t = Ok t' -> t_ret t' <> KNOT_EOK.
Proof.
  induction os as [|o os IH]; intros t t' D H; cbn [lexec] in H; [congruence|]. destruct (lexec1 o t) as [t1| | |] eqn:E; cbn [rbind] in H; try discriminate.
  eapply IH; [|eauto]. destruct o; cbn [lexec1] in E.
  - rewrite find_dead in E by auto. injection E as <-. cbn [snd]. rewrite abort_ret. auto.
  - rewrite first_dead in E by auto. injection E as <-. cbn [snd]. rewrite abort_ret. auto.
  - rewrite next_dead in E by auto. injection E as <-. cbn [snd]. rewrite abort_ret. auto.
  - rewrite del_dead in E by auto. injection E as <-. rewrite abort_ret. auto.
  - rewrite insert_dead in E by auto. injection E as <-. cbn [snd]. rewrite abort_ret. auto.
  - unfold lmdb_del_prefix, foreach in E. rewrite find_dead in E by auto. cbn [loop_from andb rbind] in E. injection E as <-. rewrite abort_ret. auto.
Qed.

(** ** All or nothing. Whatever LMDB calls fail in a write transaction, either the commit reports an error
    and the database is as before, or it reports success and the database is the one a run without any
    failure gives. *)
Theorem c53_atomic : forall d io ops t d' t', io_sane io -> lexec ops (lmdb_begin d true io) = Ok t -> lmdb_commit d t = (d', t') ->
  (t_ret t' <> KNOT_EOK -> d' = d) /\
  (t_ret t' = KNOT_EOK -> exists t0, lexec ops (lmdb_begin d true []) = Ok t0 /\ t_ret t0 = KNOT_EOK /\ d' = t_data t0).
Proof.
  intros d io ops t d' t' S HE HC.
  assert (G : forall os t t1, io_sane (t_io t) -> lexec os t = Ok t1 -> t_ret t1 <> KNOT_EOK \/ lexec os (quiet t) = Ok (quiet t1)).
  { clear. induction os as [|o os IH]; intros t t1 S H; cbn [lexec] in *; [injection H as <-; auto|].
    destruct (lexec1 o t) as [t2| | |] eqn:E; cbn [rbind] in H; try discriminate. destruct (sim_lexec1 o t S t2 E) as [S2 [D|E2]].
    - left. eapply dead_lexec; eauto. - rewrite E2. cbn [rbind]. eauto. }
  assert (HRW : forall os t t1, lexec os t = Ok t1 -> t_rw t1 = t_rw t).
  { clear. assert (Hc : forall t op, t_rw (snd (curget t op)) = t_rw t).
    { intros t op. unfold curget, mdb_cursor_get. destruct (io_next (t_io t)) as [e io]. destruct (negb (e =? 0)); [|cbn [set_io t_ck]; destruct (is_set op && _); [|destruct (mdb_lookup _ op) as [[k v]|]; [|destruct (is_set op)]]];
        (match goal with |- context [err_to_knot ?x =? KNOT_ENOENT] => destruct (err_to_knot x =? KNOT_ENOENT) end); reflexivity. }
    assert (Hs : forall t, t_rw (snd (txn_semcheck t)) = t_rw t).
    { intros t. unfold txn_semcheck. destruct (negb (t_opened t) && _); cbn [set_ret t_ret]; destruct (negb _); cbn [snd]; rewrite ?abort_rw; reflexivity. }
    assert (Hi : forall t, t_rw (snd (init_cursor t)) = t_rw t).
    { intros t. unfold init_cursor. destruct (t_cur t); try reflexivity. destruct (io_next (t_io t)). cbn [set_ret set_io t_ret]. destruct (negb _); cbn [snd]; rewrite ?abort_rw; reflexivity. }
    assert (Hf : forall t w how force, t_rw (snd (lmdb_find t (Some w) how force)) = t_rw t).
    { intros t w how force. unfold lmdb_find. specialize (Hs t). destruct (txn_semcheck t) as [ok t1]. cbn [snd] in Hs. destruct ok; cbn [negb]; auto.
      specialize (Hi t1). destruct (init_cursor t1) as [ok t2]. cbn [snd] in Hi. destruct ok; cbn [negb]; [|cbn [snd]; congruence].
      assert (Hb : t_rw (snd (find_body t2 w how)) = t_rw t2).
      { unfold find_body. cbv zeta. match goal with |- context [curget ?a ?b] => pose proof (Hc a b) as Hc1; destruct (curget a b) as [b3 t3] end. cbn [snd] in Hc1.
        destruct how; cbn [snd]; auto. destruct (t_ret t3 =? KNOT_EOK); auto. destruct b3; [destruct (kcmp (t_ck t3) w)|]; rewrite ?Hc; auto. }
      destruct (find_body t2 w how) as [b3 t3]. cbn [snd] in Hb. destruct (force && negb b3 && _); cbn [snd set_ret t_rw]; congruence. }
    assert (Hn : forall t, t_rw (snd (lmdb_next t)) = t_rw t).
    { intros t. unfold lmdb_next. match goal with |- context [txn_semcheck ?a] => pose proof (Hs a) as Hs1; destruct (txn_semcheck a) as [ok t1] end. cbn [snd] in Hs1.
      assert (t_rw t1 = t_rw t). { rewrite Hs1. destruct (is_null (t_cur t) && _); reflexivity. } destruct ok; cbn [negb snd]; auto. rewrite Hc. auto. }
    assert (Hd : forall t t1, lmdb_del_cur t = Ok t1 -> t_rw t1 = t_rw t).
    { intros t t1 H. unfold lmdb_del_cur in H. specialize (Hs t). destruct (txn_semcheck t) as [ok t2]. cbn [snd] in Hs. destruct ok; cbn [negb] in H; [|congruence].
      unfold mdb_cursor_del in H. destruct (t_cur t2) eqn:Ec; [discriminate|..]; (destruct (io_next (t_io t2)) as [e io]; destruct (negb (e =? 0)); [injection H as <-; auto|]; cbn [set_io t_rw t_cur] in H; destruct (negb (t_rw t2)); [injection H as <-; auto|]; rewrite Ec in H; injection H as <-; auto). }
    induction os as [|o os IH]; intros t t1 H; cbn [lexec] in H; [congruence|]. destruct (lexec1 o t) as [t2| | |] eqn:E; cbn [rbind] in H; try discriminate. rewrite (IH _ _ H).
    destruct o; cbn [lexec1] in E.
    - injection E as <-. apply Hf. 
    - injection E as <-. unfold lmdb_first. specialize (Hs t). destruct (txn_semcheck t) as [ok t3]. cbn [snd] in Hs. destruct ok; cbn [negb]; auto.
      specialize (Hi t3). destruct (init_cursor t3) as [ok t4]. cbn [snd] in Hi. destruct ok; cbn [negb]; [rewrite Hc; congruence|cbn [snd]; congruence].
    - injection E as <-. apply Hn.
    - auto.
    - injection E as <-. unfold lmdb_insert. specialize (Hs t). destruct (txn_semcheck t) as [ok t3]. cbn [snd] in Hs. destruct ok; cbn [negb]; auto. unfold mdb_put. destruct (io_next (t_io t3)) as [e io].
      destruct (negb (e =? 0)); [auto|]. cbn [set_io t_rw]. destruct (negb (t_rw t3)); [auto|]. destruct (_ || _); auto.
    - unfold lmdb_del_prefix, foreach in E. specialize (Hf t p GEQ false). destruct (lmdb_find t (Some p) GEQ false) as [b t3]. cbn [snd] in Hf. revert E.
      generalize (Datatypes.S (length (t_data t))). intros fl E. assert (HL : forall fl b t u t2, loop_from fl (Some p) (fun (_ : unit) t => let* t := lmdb_del_cur t in Ok (tt, t)) b tt t = Ok (u, t2) -> t_rw t2 = t_rw t).
      { clear - Hd Hn. induction fl as [|fl IH]; intros b t u t2 H; cbn [loop_from] in H; [discriminate|]. destruct (b && _); [|congruence]. destruct (lmdb_del_cur t) as [t1| | |] eqn:E; cbn [rbind] in H; try discriminate.
        specialize (Hn t1). destruct (lmdb_next t1) as [b1 t3]. cbn [snd] in Hn. apply IH in H. apply Hd in E. congruence. }
      destruct (loop_from fl _ _ b tt t3) as [[u t4]| | |] eqn:El; cbn [rbind] in E; try discriminate. injection E as <-. apply HL in El. congruence. }
  destruct (Z.eq_dec (t_ret t) KNOT_EOK) as [E|E].
  2:{ rewrite commit_dead in HC by auto. injection HC as <- <-. split; auto. rewrite abort_ret. congruence. }
  unfold lmdb_commit in HC. destruct (ready_dec t) as [R|R].
  - rewrite semcheck_ready in HC by auto. cbn [negb] in HC. cbn [set_cur t_io t_rw t_data] in HC. destruct (io_next (t_io t)) as [e io1] eqn:Ei. cbn [set_opened set_ret set_io set_cur t_rw t_data] in HC.
    injection HC as <- <-. cbn [t_ret]. split.
    + intros Hr. destruct (e =? 0) eqn:E0; auto. assert (e = 0) by lia. subst. exfalso. apply Hr. reflexivity.
    + intros Hr. apply (proj1 (err_to_knot_0 e)) in Hr. subst. change (0 =? 0) with true. cbn [andb].
      assert (S1 : io_sane (t_io (lmdb_begin d true io))). { unfold lmdb_begin. destruct (io_next io) as [e0 io0] eqn:E0. destruct (io_next_sane _ _ _ S E0) as (A & _). destruct (e0 =? 0); auto. }
      destruct (G ops (lmdb_begin d true io) t S1 HE) as [D|H]; [congruence|]. pose proof (HRW _ _ _ HE) as HW.
      assert (B : t_ret (lmdb_begin d true io) = KNOT_EOK).
      { destruct (Z.eq_dec (t_ret (lmdb_begin d true io)) KNOT_EOK); auto. exfalso. eapply dead_lexec; eauto. }
      unfold lmdb_begin in B, H, HW. destruct (io_next io) as [e0 io0]. destruct (e0 =? 0) eqn:E0.
      * cbn [t_rw] in HW. rewrite HW. exists (quiet t). split; [exact H|]. split; auto.
      * cbn [t_ret] in B. apply (proj1 (err_to_knot_0 e0)) in B. lia.
  - pose proof (notready t R) as (A & B & C). destruct (txn_semcheck t) as [ok t1]. cbn [fst snd] in *. subst ok. cbn [negb] in HC. injection HC as <- <-. split; [auto|congruence].
Qed.

(** ** Searching. [hit] and [miss] say it in terms of the pairs: an exact search finds the key; GEQ the
    least key not less than the given one; LEQ the greatest key not greater. A successful search gives the
    pair; "not found" without an error is the truth; without LMDB failures there is no error. *)
Theorem c53_find : forall t w how b t', ready t -> io_sane (t_io t) -> sorted (t_data t) -> lmdb_find t (Some w) how false = (b, t') ->
  t_data t' = t_data t /\
  (b = true -> t_ret t' = KNOT_EOK /\ hit how (t_data t) w (t_ck t') (t_cv t')) /\
  (b = false -> t_ret t' = KNOT_EOK -> miss how (t_data t) w) /\
  (t_io t = [] -> w <> [] -> t_ret t' = KNOT_EOK).
Proof.
  intros t w how b t' R S So H. pose proof (find_spec _ _ _ _ _ _ H R S So) as (D & _ & _ & _ & N & T & F & _). split; auto. split; [|split].
  - intros Hb. destruct (T Hb) as ([_ A] & _ & B). auto.
  - intros Hb Hr. apply (F Hb Hr). - intros; apply N; auto.
Qed.
(** A forced search that finds nothing fails the transaction. *)
Theorem c53_find_force : forall t w how t', ready t -> io_sane (t_io t) -> sorted (t_data t) -> lmdb_find t (Some w) how true = (false, t') -> t_ret t' <> KNOT_EOK.
Proof. intros t w how t' R S So H Hr. pose proof (find_spec _ _ _ _ _ _ H R S So) as (_ & _ & _ & _ & _ & _ & F & _). destruct (F eq_refl Hr) as (_ & _ & X & _). discriminate. Qed.
Example c53_find_case : let t := lmdb_begin [([1], [10]); ([1; 5], [20]); ([3], [30])] true [] in
  t_ck (snd (lmdb_find t (Some [2]) LEQ false)) = [1; 5] /\ t_ck (snd (lmdb_find t (Some [2]) GEQ false)) = [3] /\ fst (lmdb_find t (Some [2]) EXACT false) = false.
Proof. vm_compute. auto. Qed.

(** ** Looping over a prefix: exactly the pairs whose key starts with it, in the order of the keys. *)
Definition starts_with (p k : list Z) : Prop := exists r, k = p ++ r.
Theorem c53_foreach : forall (p : list Z) t, ready t -> io_sane (t_io t) -> sorted (t_data t) ->
  exists l t', foreach (S (length (t_data t))) p (body_read (fun l k v => l ++ [(k, v)])) [] t = Ok (l, t') /\
  (t_ret t' = KNOT_EOK -> sorted l /\ t_data t' = t_data t /\ forall k v, In (k, v) l <-> In (k, v) (t_data t) /\ starts_with p k) /\
  (t_io t = [] -> p <> [] -> t_ret t' = KNOT_EOK).
Proof.
  intros p t R S So. destruct (foreach_spec _ _ _ _ _ p (body_read_ok _ (fun l k v => l ++ [(k, v)])) (Datatypes.S (length (t_data t))) [] t) as (l & t' & E & H); auto; try lia.
  exists l, t'. split; auto. assert (G : forall m acc, fold_kv (fun (l : db) k v => l ++ [(k, v)]) m acc = acc ++ m).
  { induction m as [|[k v] m IH]; intros acc; unfold fold_kv in *; cbn [fold_left fst snd]; [rewrite app_nil_r; auto|]. rewrite IH, <- app_assoc. auto. }
  destruct H as [([_ Hr] & Hs & Hd & _)|(X & Y)].
  - rewrite G in Hs. cbn [app] in Hs. subst l. split; [|auto]. intros _. split; [apply sorted_filter; auto|]. split.
    + rewrite Hd. unfold kept. apply filter_all. intros x _. unfold keepf. apply orb_true_r.
    + intros k v. rewrite filter_In. unfold inp. cbn [fst]. rewrite is_prefix_of_iff. tauto.
  - split; [congruence|]. intros Hn Hp. exfalso. apply Y. repeat split; auto. discriminate.
Qed.
(** ** Deleting a prefix: exactly the pairs whose key starts with it are gone. *)
Theorem c53_del_prefix : forall p t, ready t -> io_sane (t_io t) -> sorted (t_data t) ->
  exists t', lmdb_del_prefix (S (length (t_data t))) t p = Ok t' /\
  (t_ret t' = KNOT_EOK -> sorted (t_data t') /\ forall k v, In (k, v) (t_data t') <-> In (k, v) (t_data t) /\ ~ starts_with p k) /\
  (t_io t = [] -> p <> [] -> t_rw t = true -> t_ret t' = KNOT_EOK).
Proof.
  intros p t R S So. unfold lmdb_del_prefix.
  assert (HB : body_ok (fun (s : unit) _ _ => s) (fun _ _ => false) true (fun (_ : unit) t => let* t := lmdb_del_cur t in Ok (tt, t))).
  { intros [] t0 k v R0 S0 So0 C CK CV. destruct (body_del_ok (fun _ _ => false) tt t0 k v R0 S0 So0 C CK CV) as (t' & E & H). exists t'. auto. }
  destruct (foreach_spec _ _ _ _ _ p HB (Datatypes.S (length (t_data t))) tt t) as (u & t' & E & H); auto; try lia. rewrite E. cbn [rbind]. exists t'. split; auto.
  destruct H as [([_ Hr] & Hs & Hd & _)|(X & Y)].
  - split; auto. intros _. rewrite Hd. split; [apply sorted_filter; auto|]. intros k v. unfold kept. rewrite filter_In. unfold keepf, inp. cbn [fst snd]. rewrite orb_false_r.
    destruct (is_prefix_of p k) eqn:Ep; [apply is_prefix_of_iff in Ep; unfold starts_with; cbn [negb]; intuition discriminate|]. cbn [negb]. split; [|tauto]. intros [A _]. split; auto. intros Hp. apply is_prefix_of_iff in Hp. congruence.
  - split; [congruence|]. intros Hn Hp Hw. exfalso. apply Y. auto.
Qed.
Example c53_del_prefix_case : exists t', lmdb_del_prefix 9 (lmdb_begin [([1], [10]); ([1; 5], [20]); ([3], [30])] true []) [1] = Ok t' /\ t_data t' = [([3], [30])] /\ t_ret t' = KNOT_EOK.
Proof. eexists. vm_compute. auto. Qed.

(** ** Copying a prefix: the target has under the prefix exactly what the source has; the rest is unchanged. *)
Lemma insert_ok : forall t k v, ready t -> io_sane (t_io t) -> 0 < zlen k <= LMDB_MAXKEY ->
  let t' := snd (lmdb_insert t (Some k) v) in
  (ready t' /\ t_data t' = db_put (t_data t) k v /\ t_rw t' = t_rw t /\ io_sane (t_io t') /\ (t_io t = [] -> t_io t' = [])) \/ (t_ret t' <> KNOT_EOK /\ ~ (t_io t = [] /\ t_rw t = true)).
Proof.
  intros t k v R S Hk. unfold lmdb_insert. rewrite semcheck_ready by auto. cbn [negb]. unfold mdb_put. destruct (io_next (t_io t)) as [e io] eqn:Ei.
  destruct (io_next_sane _ _ _ S Ei) as (S' & _ & _ & _ & N4). destruct R as [R1 R2]. destruct (e =? 0) eqn:E0; cbn [negb].
  - cbn [set_io t_rw]. destruct (t_rw t) eqn:Ew; cbn [negb].
    + replace ((zlen k =? 0) || (zlen k >? LMDB_MAXKEY)) with false by lia. left. unfold ready. cbn [snd set_ret set_data set_io t_opened t_ret t_data t_rw t_io]. change (err_to_knot 0) with KNOT_EOK. repeat split; auto. intros Hn. destruct (N4 Hn). auto.
    + right. cbn [snd set_ret t_ret]. change (err_to_knot EACCES) with (-13). split; [unfold KNOT_EOK; lia|]. intros [_ X]. congruence.
  - right. cbn [snd set_ret t_ret]. split; [intros Hc; apply (proj1 (err_to_knot_0 e)) in Hc; lia|]. intros [Hn _]. destruct (N4 Hn). lia.
Qed.
Lemma insert_rw : forall t k v, t_rw (snd (lmdb_insert t k v)) = t_rw t.
Proof.
  intros t k v. unfold lmdb_insert. destruct (ready_dec t) as [R|R].
  - rewrite semcheck_ready by auto. cbn [negb]. destruct k as [k|]; [|cbn [snd]; rewrite abort_rw; reflexivity]. unfold mdb_put. destruct (io_next (t_io t)) as [e io]. destruct (negb (e =? 0)); [auto|]. cbn [set_io t_rw]. destruct (negb (t_rw t)); [auto|]. destruct (_ || _); auto.
  - unfold txn_semcheck. destruct (negb (t_opened t) && (t_ret t =? KNOT_EOK)) eqn:E; cbn [set_ret t_ret].
    + change (KNOT_ESEMCHECK =? KNOT_EOK) with false. cbn [negb snd]. rewrite abort_rw. reflexivity.
    + destruct (t_ret t =? KNOT_EOK) eqn:E2; cbn [negb snd]; [|rewrite abort_rw; reflexivity]. exfalso. apply R. split; [|lia]. rewrite andb_true_r in E. destruct (t_opened t); auto; discriminate.
Qed.
Definition keys_ok (d : db) : Prop := forall k v, In (k, v) d -> 0 < zlen k <= LMDB_MAXKEY.
Theorem c53_copy_prefix : forall p from to fuel, ready from -> ready to -> io_sane (t_io from) -> io_sane (t_io to) -> sorted (t_data from) -> sorted (t_data to) ->
  keys_ok (t_data from) -> (length (t_data from) < fuel)%nat -> (length (t_data to) < fuel)%nat ->
  exists ret from' to', lmdb_copy_prefix fuel from to p = Ok (ret, from', to') /\
  (ret = KNOT_EOK -> t_ret to' = KNOT_EOK /\ sorted (t_data to') /\ t_data from' = t_data from /\
     forall k v, In (k, v) (t_data to') <-> (starts_with p k /\ In (k, v) (t_data from)) \/ (~ starts_with p k /\ In (k, v) (t_data to))) /\
  (t_io from = [] -> t_io to = [] -> p <> [] -> t_rw to = true -> ret = KNOT_EOK).
Proof.
  intros p from to fuel RF RT SF ST DF DT KF LF LT. unfold lmdb_copy_prefix.
  assert (HB : body_ok (fun (s : unit) _ _ => s) (fun _ _ => false) true (fun (_ : unit) t => let* t := lmdb_del_cur t in Ok (tt, t))).
  { intros [] t0 k v R0 S0 So0 C CK CV. destruct (body_del_ok (fun _ _ => false) tt t0 k v R0 S0 So0 C CK CV) as (t' & E & H). exists t'. auto. }
  destruct (foreach_spec _ _ _ _ _ p HB fuel tt to) as (u & t1 & E & H); auto. rewrite E. cbn [rbind].
  destruct H as [(R1 & Hs & Hd & W1 & S1 & I1)|(X & Y)].
  2:{ replace (t_ret t1 =? KNOT_EOK) with false by lia. cbn [negb]. eexists _, _, _. split; [reflexivity|]. split; [congruence|]. intros A B C D. exfalso. apply Y. auto. }
  pose proof R1 as [_ R1']. rewrite R1'. change (KNOT_EOK =? KNOT_EOK) with true. cbn [negb].
  set (f := fun (t : txn) k v => snd (lmdb_insert t (Some k) v)).
  assert (HB2 : body_ok f (fun _ _ => true) false (fun to from => let (_, to0) := lmdb_insert to (Some (t_ck from)) (t_cv from) in Ok (to0, from))).
  { intros s t0 k v R0 S0 So0 C CK CV. exists t0. rewrite CK, CV. unfold f. destruct (lmdb_insert s (Some k) v) as [b s']. cbn [snd]. split; auto. left. auto 8. }
  destruct (foreach_spec _ _ _ _ _ p HB2 fuel t1 from) as (t2 & from' & E2 & H2); auto. rewrite E2. cbn [rbind].
  destruct H2 as [(RF' & Hs2 & Hd2 & WF2 & SF2 & IF2)|(X & Y)].
  2:{ replace (t_ret from' =? KNOT_EOK) with false by lia. eexists _, _, _. split; [reflexivity|]. split; [congruence|]. intros A B C D. exfalso. apply Y. repeat split; auto. discriminate. }
  pose proof RF' as [_ RF'']. rewrite RF''. change (KNOT_EOK =? KNOT_EOK) with true. eexists _, _, _. split; [reflexivity|].
  assert (SD1 : sorted (t_data t1)). { rewrite Hd. apply sorted_filter. auto. }
  assert (G : forall m t, keys_ok m -> sorted m -> io_sane (t_io t) -> (ready t \/ t_ret t <> KNOT_EOK) -> sorted (t_data t) ->
     let t' := fold_kv f m t in
     (t_ret t' = KNOT_EOK -> ready t -> ready t' /\ sorted (t_data t') /\ forall k v, In (k, v) (t_data t') <-> In (k, v) m \/ (~ (exists v', In (k, v') m) /\ In (k, v) (t_data t))) /\
     (t_ret t <> KNOT_EOK -> t_ret t' <> KNOT_EOK) /\ (t_io t = [] -> ready t -> t_rw t = true -> t_ret t' = KNOT_EOK)).
  { clear. induction m as [|[k v] m IH]; intros t K So S R SD.
    - unfold fold_kv; cbn [fold_left]. split; [|split; auto; intros _ [_ A] _; auto]. intros _ Rt. split; auto. split; auto. intros k v. cbn [In]. split; [|tauto]. intros H. right. split; auto. intros [v' []].
    - unfold fold_kv. cbn [fold_left fst snd]. fold (fold_kv f m (f t k v)). apply sorted_inv in So. destruct So as [So L].
      assert (Kk : 0 < zlen k <= LMDB_MAXKEY) by (eapply K; left; reflexivity). assert (K' : keys_ok m) by (intros a b Hi; eapply K; right; eauto).
      destruct R as [R|R].
      + destruct (insert_ok t k v R S Kk) as [(R2 & D2 & W2 & S2 & I2)|(X & Y)]; change (snd (lmdb_insert t (Some k) v)) with (f t k v) in *.
        * destruct (IH (f t k v)) as (A & B & C); auto. { rewrite D2. apply db_put_sorted. auto. } split; [|split].
          -- intros Hr _. destruct (A Hr R2) as (A1 & A2 & A3). split; auto. split; auto. intros k0 v0. rewrite A3, D2, db_put_in by auto. cbn [In]. split.
             ++ intros [H|[N [[-> ->]|[Nk H]]]]; auto. right. split; auto. intros [v' [Hv|Hv]]; [congruence|]. apply N. eauto.
             ++ intros [[H|H]|[N H]]; auto.
                ** injection H as <- <-. right. split; auto. intros [v' Hv]. apply L in Hv. apply kcmp_lt_irrefl in Hv. auto.
                ** right. split; [intros [v' Hv]; apply N; eauto|]. right. split; auto. intros ->. apply N. eauto.
          -- intros Hr. exfalso. apply Hr. apply R. -- intros Hn Rt Hw. apply C; auto. congruence.
        * destruct (IH (f t k v)) as (A & B & C); auto.
          { revert X. unfold f, lmdb_insert. rewrite semcheck_ready by auto. cbn [negb]. unfold mdb_put. destruct (io_next (t_io t)) as [e io] eqn:Ei. destruct (io_next_sane _ _ _ S Ei) as (S' & _).
            destruct (negb (e =? 0)); [auto|]. cbn [set_io t_rw]. destruct (negb (t_rw t)); [auto|]. destruct (_ || _); auto. }
          { revert X. unfold f, lmdb_insert. rewrite semcheck_ready by auto. cbn [negb]. unfold mdb_put. destruct (io_next (t_io t)) as [e io] eqn:Ei.
            destruct (negb (e =? 0)); [auto|]. cbn [set_io t_rw]. destruct (negb (t_rw t)); [auto|]. destruct (_ || _); auto. intros _. cbn [snd set_ret set_data t_data set_io]. apply db_put_sorted. auto. }
          split; [intros Hr _; exfalso; apply B; auto|]. split; [intros Hr; exfalso; apply Hr; apply R|]. intros Hn _ Hw. exfalso. apply Y. auto.
      + replace (f t k v) with (lmdb_abort t) by (unfold f; rewrite insert_dead by auto; reflexivity). destruct (IH (lmdb_abort t)) as (A & B & C); auto; rewrite ?abort_io, ?abort_ret, ?abort_data in *; auto.
        split; [intros Hr [_ Rt]; congruence|]. split; [intros; apply B; auto|]. intros _ [_ Rt]. congruence. }
  assert (KM : keys_ok (filter (inp p) (t_data from))). { intros k v Hi. apply filter_In in Hi. eapply KF; apply Hi. }
  destruct (G (filter (inp p) (t_data from)) t1) as (A & B & C); auto; [apply sorted_filter; auto|]. rewrite <- Hs2 in *. split.
  - intros Hr. destruct (A Hr R1) as (_ & A2 & A3). split; auto. split; auto. split.
    { rewrite Hd2. unfold kept. apply filter_all. intros x _. unfold keepf. apply orb_true_r. }
    intros k v. rewrite A3, Hd. unfold kept. rewrite !filter_In. unfold keepf, inp. cbn [fst snd]. rewrite orb_false_r. unfold starts_with. rewrite <- is_prefix_of_iff.
    destruct (is_prefix_of p k) eqn:Ep; cbn [negb].
    + split; [intros [[H _]|[_ [_ H]]]; [left; auto|discriminate]|intros [[_ H]|[H _]]; [left; auto|congruence]].
    + split; [intros [[_ H]|[_ [H _]]]; [discriminate|right; split; [congruence|auto]]|intros [[H _]|[_ H]]; [discriminate|right]]. split; auto. intros [v' Hv]. apply filter_In in Hv. cbn [fst] in Hv. destruct Hv. congruence.
  - intros HF HT Hp Hw. apply C; auto. rewrite W1; auto.
Qed.
Example c53_copy_prefix_case : exists r f' t', lmdb_copy_prefix 9 (lmdb_begin [([1], [10]); ([1; 5], [20]); ([3], [30])] false []) (lmdb_begin [([1; 4], [9]); ([2], [8])] true []) [1] = Ok (r, f', t') /\
  r = KNOT_EOK /\ t_data t' = [([1], [10]); ([1; 5], [20]); ([2], [8])].
Proof. eexists _, _, _. vm_compute. auto. Qed.

(** The copy of several prefixes is one transaction, but it is committed also after the source could not be
    read: an error is reported and the target has lost its pairs. *)
Theorem c53_copy_prefixes_atomic_refuted : exists from to p iof ret to',
  copy_prefixes 9 from to [p] iof [] = Ok (ret, to') /\ ret <> KNOT_EOK /\ to' <> to /\ sorted to /\ sorted from /\ p <> [].
Proof.
  exists [([1], [10])], [([1], [9])], [1], [0; 5], (-5), []. split; [vm_compute; reflexivity|]. split; [discriminate|]. split; [discriminate|].
  split; [repeat constructor|]. split; [repeat constructor|discriminate].
Qed.

(** ** Keys and values built from fields *)
(** arguments in the range of their C types; a name is the wire form of labels, with anything behind it *)
Definition karg_ok (a : karg) : Prop :=
  match a with
  | KB v => 0 <= v < 2 ^ 8 | KH v => 0 <= v < 2 ^ 16 | KI v => 0 <= v < 2 ^ 32 | KL v => 0 <= v < 2 ^ 64
  | KS s => bytes s /\ ~ In 0 s | KN d => exists ls j, legal_labels ls /\ d = DnameSpec.wire ls ++ j | KD d => bytes d /\ d <> []
  end.
(** the bytes of a field: big-endian integers, a string with its zero, a name, the given bytes *)
Definition name_bytes (d : list Z) : list Z := match dname_size d with Ok n => zfirstn n d | _ => [] end.
Definition enc (a : karg) : list Z :=
  match a with
  | KB v => be 1 v | KH v => be 2 v | KI v => be 4 v | KL v => be 8 v | KS s => s ++ [0] | KN d => name_bytes d | KD d => d
  end.
Definition encs (l : list karg) : list Z := concat (map enc l).
Definition fmt (a : karg) : kfmt :=
  match a with KB _ => FB true | KH _ => FH true | KI _ => FI true | KL _ => FL true | KS _ => FS true | KN _ => FN true | KD d => FD true (zlen d) end.
(** what reading gives back: the integers and bytes themselves, the place of strings and names *)
Fixpoint vals (pos : Z) (l : list karg) : list kval :=
  match l with
  | [] => []
  | a :: l =>
    match a with KB v | KH v | KI v | KL v => VInt v | KS _ | KN _ => VPos pos | KD d => VData d end :: vals (pos + zlen (enc a)) l
  end.
Lemma name_bytes_wire : forall ls j, legal_labels ls -> name_bytes (DnameSpec.wire ls ++ j) = DnameSpec.wire ls /\ dname_size (DnameSpec.wire ls ++ j) = Ok (zlen (DnameSpec.wire ls)).
Proof.
  intros ls j H. unfold name_bytes. rewrite dname_size_spec by auto. rewrite <- zlen_wire. split; auto. apply WireProofs.zfirstn_app_exact.
Qed.
Lemma enc_nonempty : forall a, karg_ok a -> 0 < zlen (enc a).
Proof.
  intros [v|v|v|v|s|d|d] H; cbn [enc karg_ok] in *; rewrite ?be_length; try lia.
  - rewrite zlen_app. pose proof (zlen_nonneg s). change (zlen [0]) with 1. lia.
  - destruct H as (ls & j & L & ->). destruct (name_bytes_wire ls j L) as [-> _]. destruct ls; cbn [DnameSpec.wire]; rewrite zlen_cons; match goal with |- context [zlen ?x] => pose proof (zlen_nonneg x); lia end.
  - destruct H as [_ H]. destruct d; [congruence|]. rewrite zlen_cons. pose proof (zlen_nonneg d). lia.
Qed.
Lemma karg_size_ok : forall a, karg_ok a -> karg_size a = Ok (zlen (enc a)).
Proof.
  intros [v|v|v|v|s|d|d] H; cbn [enc karg_ok karg_size] in *; rewrite ?be_length; try reflexivity.
  - rewrite zlen_app. reflexivity. - destruct H as (ls & j & L & ->). destruct (name_bytes_wire ls j L) as [-> ->]. auto.
Qed.
Lemma kargs_size_ok : forall l, Forall karg_ok l -> kargs_size l = Ok (zlen (encs l)).
Proof.
  induction l as [|a l IH]; intros H; cbn [kargs_size]; auto. inversion H; subst. rewrite karg_size_ok by auto. cbn [rbind]. rewrite IH by auto. cbn [rbind].
  unfold encs. cbn [map concat]. rewrite zlen_app. auto.
Qed.
Lemma make_item_ok : forall w a pre post, karg_ok a -> at_ w pre post -> w_ro w = false -> zlen (enc a) <= zlen post ->
  exists w', make_key_item w a = Ok w' /\ at_ w' (pre ++ enc a) (zskipn (zlen (enc a)) post) /\ w_ro w' = false.
Proof.
  intros w a pre post H HA HR HL. destruct (c48_write w pre post (enc a) HA HR) as [G _]. destruct (G HL) as (w' & E & A & R). exists w'. split; auto.
  destruct a as [v|v|v|v|s|d|d]; cbn [make_key_item enc karg_ok] in *; auto. destruct H as (ls & j & L & ->). destruct (name_bytes_wire ls j L) as [E1 ->]. rewrite E1 in E. cbn [rbind].
  rewrite take_app. cbn [rbind]. auto.
Qed.
Lemma make_items_ok : forall l w pre post, Forall karg_ok l -> at_ w pre post -> w_ro w = false -> zlen (encs l) <= zlen post ->
  exists w', make_key_items w l = Ok w' /\ at_ w' (pre ++ encs l) (zskipn (zlen (encs l)) post).
Proof.
  induction l as [|a l IH]; intros w pre post H HA HR HL; cbn [make_key_items].
  - exists w. split; auto. unfold encs. cbn [map concat]. rewrite app_nil_r. auto.
  - inversion H; subst. unfold encs in *. cbn [map concat] in *. rewrite zlen_app in *. pose proof (zlen_nonneg (enc a)). pose proof (zlen_nonneg (concat (map enc l))).
    destruct (make_item_ok w a pre post) as (w1 & -> & A1 & R1); auto; [lia|]. cbn [rbind].
    destruct (IH w1 (pre ++ enc a) (zskipn (zlen (enc a)) post)) as (w2 & E2 & A2); auto; [rewrite zlen_zskipn; lia|]. exists w2. split; auto.
    rewrite <- app_assoc in A2. rewrite zskipn_zskipn in A2 by lia. auto.
Qed.
(** Making a key gives the concatenated fields (or no key at all, if memory is short). *)
Theorem c53_make_key : forall fresh l, l <> [] -> Forall karg_ok l -> zlen (encs l) < 2 ^ 63 ->
  make_key true fresh l = Ok (Some (encs l)) /\ make_key false fresh l = Ok None.
Proof.
  intros fresh l Hn H HL. unfold make_key. rewrite kargs_size_ok by auto. cbn [rbind].
  assert (P : 0 < zlen (encs l)). { destruct l as [|a l]; [congruence|]. inversion H; subst. unfold encs. cbn [map concat]. rewrite zlen_app. pose proof (enc_nonempty a H2). pose proof (zlen_nonneg (concat (map enc l))). lia. }
  replace (zlen (encs l) =? 0) with false by lia. cbn [orb negb]. split; auto. unfold make_key_part.
  set (buf := repeat fresh (Z.to_nat (zlen (encs l)))). assert (B : zlen buf = zlen (encs l)). { unfold buf. unfold zlen at 1. rewrite repeat_length. lia. }
  assert (A0 : at_ (wire_init buf) [] buf). { unfold at_. cbn [wire_init w_buf w_pos w_err app]. rewrite B. auto. }
  destruct (make_items_ok l (wire_init buf) [] buf) as (w & -> & A); auto; [lia|]. cbn [rbind app] in *. pose proof (at_wf _ _ _ A) as [W S]. destruct A as (A1 & A2 & A3 & A4).
  rewrite A3, wf_avail, S, A2 by auto. change (KNOT_EOK =? KNOT_EOK) with true.
  assert (Z0 : zskipn (zlen (encs l)) buf = []). { rewrite <- B. unfold zskipn, zlen. rewrite Nat2Z.id. apply skipn_all. }
  rewrite Z0 in *. change (zlen (@nil Z)) with 0. replace (zlen (encs l) + 0 - zlen (encs l) =? 0) with true by lia. cbn [andb]. rewrite A1, app_nil_r. auto.
Qed.
Lemma skip_ok : forall w pre d post, at_ w pre (d ++ post) -> exists w', wire_skip w (zlen d) = Ok w' /\ at_ w' (pre ++ d) post.
Proof.
  intros w pre d post H. pose proof (at_wf _ _ _ H) as [W S]. destruct H as (H1 & H2 & H3 & H4). unfold wire_skip. rewrite H3. change (KNOT_EOK =? KNOT_EOK) with true. cbn [negb].
  pose proof (zlen_nonneg d). pose proof (zlen_nonneg post). replace (zlen d >=? 0) with true by lia. rewrite wf_avail, S, H2, zlen_app by auto. replace (zlen d >? _) with false by lia.
  eexists. split; [reflexivity|]. unfold at_. cbn [set_pos w_buf w_pos w_err]. rewrite <- app_assoc. rewrite zlen_app. auto.
Qed.
Lemma strlen_ok : forall s j n, ~ In 0 s -> strlen_loop (s ++ 0 :: j) n = Ok (n + zlen s).
Proof.
  induction s as [|c s IH]; intros j n H; cbn [app strlen_loop].
  - change (0 =? 0) with true. rewrite zlen_nil. f_equal. lia.
  - cbn [In] in H. replace (c =? 0) with false by lia. rewrite IH by tauto. rewrite zlen_cons. f_equal. lia.
Qed.
Lemma unmake_item_ok : forall a w pre post, karg_ok a -> at_ w pre (enc a ++ post) ->
  exists w', unmake_item w (fmt a) = Ok (match a with KB v | KH v | KI v | KL v => VInt v | KS _ | KN _ => VPos (zlen pre) | KD d => VData d end, w') /\ at_ w' (pre ++ enc a) post.
Proof.
  intros a w pre post H HA.
  assert (HP : zskipn (w_pos w) (w_buf w) = enc a ++ post). { destruct HA as (A1 & A2 & _). rewrite A1, A2. apply WireProofs.zskipn_app_exact. }
  assert (PP : w_pos w = zlen pre) by apply HA.
  destruct a as [v|v|v|v|s|d|d]; cbn [fmt unmake_item enc karg_ok] in *; cbv zeta.
  - destruct (c48_read _ _ _ _ HA) as (w' & E & A). rewrite be_length in E. unfold wire_read_u8. change 1 with (Z.of_nat 1). rewrite E. cbn [rbind]. rewrite unbe_be. rewrite Z.mod_small by (change (256 ^ Z.of_nat 1) with (2 ^ 8); lia). eauto.
  - destruct (c48_read _ _ _ _ HA) as (w' & E & A). rewrite be_length in E. unfold wire_read_u16. change 2 with (Z.of_nat 2). rewrite E. cbn [rbind]. rewrite unbe_be. rewrite Z.mod_small by (change (256 ^ Z.of_nat 2) with (2 ^ 16); lia). eauto.
  - destruct (c48_read _ _ _ _ HA) as (w' & E & A). rewrite be_length in E. unfold wire_read_u32. change 4 with (Z.of_nat 4). rewrite E. cbn [rbind]. rewrite unbe_be. rewrite Z.mod_small by (change (256 ^ Z.of_nat 4) with (2 ^ 32); lia). eauto.
  - destruct (c48_read _ _ _ _ HA) as (w' & E & A). rewrite be_length in E. unfold wire_read_u64. change 8 with (Z.of_nat 8). rewrite E. cbn [rbind]. rewrite unbe_be. rewrite Z.mod_small by (change (256 ^ Z.of_nat 8) with (2 ^ 64); lia). eauto.
  - rewrite HP. rewrite <- app_assoc. cbn [app]. rewrite strlen_ok by tauto. cbn [rbind]. destruct (skip_ok _ _ _ _ HA) as (w' & E & A). rewrite zlen_app in E. change (zlen [0]) with 1 in E.
    replace (0 + zlen s + 1) with (zlen s + 1) by lia. rewrite E. cbn [rbind]. rewrite PP. eauto.
  - rewrite HP. destruct H as (ls & j & L & ->). destruct (name_bytes_wire ls j L) as [E1 _]. rewrite E1 in *. destruct (name_bytes_wire ls post L) as [_ ->]. cbn [rbind].
    destruct (skip_ok _ _ _ _ HA) as (w' & E & A). rewrite E. cbn [rbind]. rewrite PP. eauto.
  - destruct HA as (A1 & A2 & A3 & A4). rewrite mem_read_ok by (rewrite ?A1, ?A2, ?zlen_app in *; pose proof (zlen_nonneg pre); pose proof (zlen_nonneg d); pose proof (zlen_nonneg post); lia). cbn [rbind].
    rewrite HP, WireProofs.zfirstn_app_exact. destruct (skip_ok w pre d post) as (w' & E & A); [unfold at_; auto|]. rewrite E. cbn [rbind]. eauto.
Qed.
Lemma unmake_items_ok : forall l w pre, Forall karg_ok l -> at_ w pre (encs l) -> exists w', unmake_items w (map fmt l) = Ok (vals (zlen pre) l, w') /\ at_ w' (pre ++ encs l) [].
Proof.
  induction l as [|a l IH]; intros w pre H HA; cbn [map unmake_items vals].
  - exists w. split; auto. unfold encs in *. cbn [map concat] in *. rewrite app_nil_r. auto.
  - inversion H; subst. unfold encs in *. cbn [map concat] in *. pose proof (at_wf _ _ _ HA) as [W S]. pose proof HA as (A1 & A2 & A3 & A4). rewrite A3, wf_avail, S, A2, zlen_app by auto.
    pose proof (enc_nonempty a H2). pose proof (zlen_nonneg (concat (map enc l))). change (KNOT_EOK =? KNOT_EOK) with true. replace (_ >? 0) with true by lia. cbn [andb].
    destruct (unmake_item_ok a w pre _ H2 HA) as (w1 & -> & HA1). cbn [rbind]. destruct (IH w1 (pre ++ enc a) H3 HA1) as (w2 & -> & HA2). cbn [rbind]. rewrite zlen_app. exists w2. split; auto.
    rewrite <- app_assoc in HA2. auto.
Qed.
(** Reading a made key with the same format gives its fields back. *)
Theorem c53_key_round_trip : forall l, l <> [] -> Forall karg_ok l -> zlen (encs l) < 2 ^ 63 ->
  unmake_key (Some (encs l)) (map fmt l) = Ok (true, vals 0 l).
Proof.
  intros l Hn H HL. unfold unmake_key. assert (A0 : at_ (wire_init_const (encs l)) [] (encs l)). { unfold at_. cbn [wire_init_const w_buf w_pos w_err app]. auto. }
  destruct (unmake_items_ok l _ [] H A0) as (w & -> & A). cbn [rbind app] in *. pose proof (at_wf _ _ _ A) as [W S]. destruct A as (A1 & A2 & A3 & A4). rewrite A3, wf_avail, S, A2 by auto.
  change (zlen (@nil Z)) with 0. replace (zlen (encs l) + 0 - zlen (encs l) =? 0) with true by lia. auto.
Qed.
Definition c53_key_case_args : list karg := [KB 7; KN [1; 97; 0; 99]; KI 70000; KS [104; 105]; KH 300; KD [1; 2; 3]; KL 5].
Example c53_key_case : Forall karg_ok c53_key_case_args /\ make_key true 99 c53_key_case_args = Ok (Some (encs c53_key_case_args)) /\
  unmake_key (Some (encs c53_key_case_args)) (map fmt c53_key_case_args) = Ok (true, [VInt 7; VPos 1; VInt 70000; VPos 8; VInt 300; VData [1; 2; 3]; VInt 5]).
Proof.
  split; [|split; vm_compute; reflexivity]. unfold c53_key_case_args. repeat apply Forall_cons; cbn [karg_ok]; try lia; auto.
  - exists [[97]], [99]. split; [|reflexivity]. repeat constructor. all: vm_compute; congruence.
  - split; [repeat constructor; vm_compute; congruence|]. cbn [In]. lia.
  - split; [repeat constructor; vm_compute; congruence|discriminate].
Qed.
(** With the integer formats alone, any stored value may be read: the result is defined whatever the bytes. *)
Definition fmt_int (f : kfmt) : Prop := match f with FB _ | FH _ | FI _ | FL _ => True | _ => False end.
Theorem c53_unmake_safe : forall d l, zlen d < 2 ^ 63 -> Forall fmt_int l -> exists ok vs, unmake_key (Some d) l = Ok (ok, vs) /\ length vs = length l.
Proof.
  intros d l Hd H. unfold unmake_key.
  assert (G : forall l w, wf w -> Forall fmt_int l -> exists vs w', unmake_items w l = Ok (vs, w') /\ length vs = length l /\ wf w').
  { clear. induction l as [|f l IH]; intros w W H; cbn [unmake_items]; [exists [], w; auto|]. inversion H; subst.
    destruct ((w_err w =? KNOT_EOK) && (wire_available w >? 0)); [|eexists _, w; split; [reflexivity|]; rewrite map_length; auto].
    assert (E : exists v w', unmake_item w f = Ok (v, w') /\ wf w').
    { assert (HR : forall n, 0 <= n -> exists d w', wire_read w n = Ok (d, w') /\ wf w'). { intros n Hn. destruct (read_defined w n W Hn) as (d & w' & E & W' & _). eauto. }
      assert (HS : forall n, 0 <= n -> exists w', wire_skip w n = Ok w' /\ wf w').
      { intros n Hn. unfold wire_skip. destruct (negb _); [eauto|]. replace (n >=? 0) with true by lia. rewrite wf_avail by auto. pose proof W as [W1 W2].
        destruct (n >? w_size w - w_pos w) eqn:En; eexists; (split; [reflexivity|]); unfold wf, w_size in *; cbn [set_err set_pos w_pos w_buf]; lia. }
      destruct f as [b|b|b|b|b|b|b n]; cbn [fmt_int] in *; try tauto; cbn [unmake_item]; cbv zeta; destruct b.
      - destruct (HR 1) as (d & w' & E & W'); [lia|]. unfold wire_read_u8. rewrite E. cbn [rbind]. eauto. - destruct (HS 1) as (w' & -> & W'); [lia|]. cbn [rbind]. eauto.
      - destruct (HR 2) as (d & w' & E & W'); [lia|]. unfold wire_read_u16. rewrite E. cbn [rbind]. eauto. - destruct (HS 2) as (w' & -> & W'); [lia|]. cbn [rbind]. eauto.
      - destruct (HR 4) as (d & w' & E & W'); [lia|]. unfold wire_read_u32. rewrite E. cbn [rbind]. eauto. - destruct (HS 4) as (w' & -> & W'); [lia|]. cbn [rbind]. eauto.
      - destruct (HR 8) as (d & w' & E & W'); [lia|]. unfold wire_read_u64. rewrite E. cbn [rbind]. eauto. - destruct (HS 8) as (w' & -> & W'); [lia|]. cbn [rbind]. eauto. }
    destruct E as (v & w1 & -> & W1). cbn [rbind]. destruct (IH w1 W1 H3) as (vs & w2 & -> & Hl & W2). cbn [rbind]. exists (v :: vs), w2. cbn [length]. auto. }
  destruct (G l (wire_init_const d)) as (vs & w & -> & Hl & _); auto. { split; unfold w_size; cbn [wire_init_const w_pos w_buf]; pose proof (zlen_nonneg d); lia. } cbn [rbind]. eauto.
Qed.
(** But a value cut at a field boundary is accepted, with the remaining outputs left unset; *)
Theorem c53_unmake_short_refuted : exists d, unmake_key (Some d) [FB true; FI true] = Ok (true, [VInt 7; VNone]).
Proof. exists [7]. reflexivity. Qed.
(** and strings, names and raw bytes are read beyond the end of a shorter value. *)
Theorem c53_unmake_overread_refuted : (exists d, unmake_key (Some d) [FS true] = UB) /\ (exists d, unmake_key (Some d) [FN true] = UB) /\ (exists d, unmake_key (Some d) [FD true 4] = UB).
Proof. split; [|split]; [exists [65]|exists [5; 65]|exists [1; 2]]; reflexivity. Qed.

(** ** A single insertion *)
Theorem c53_quick_insert : forall d k v io, io_sane io -> sorted d -> 0 < zlen k <= LMDB_MAXKEY ->
  let (d', ret) := quick_insert d (Some k) (Some v) io in
  (ret <> KNOT_EOK -> d' = d) /\
  (ret = KNOT_EOK -> sorted d' /\ forall k' v', In (k', v') d' <-> (k' = k /\ v' = v) \/ (k' <> k /\ In (k', v') d)) /\
  (io = [] -> ret = KNOT_EOK).
Proof.
  intros d k v io S So Hk. unfold quick_insert. destruct (lmdb_insert (lmdb_begin d true io) (Some k) v) as [b t] eqn:Ei. destruct (lmdb_commit d t) as [d' t'] eqn:Ec.
  assert (HE : lexec [OInsert k v] (lmdb_begin d true io) = Ok t). { cbn [lexec lexec1 rbind]. rewrite Ei. auto. }
  destruct (c53_atomic d io [OInsert k v] t d' t' S HE Ec) as [A B]. split; auto.
  assert (P : forall x, lexec [OInsert k v] (lmdb_begin d true []) = Ok x -> t_data x = db_put d k v /\ ready x /\ t_io x = [] /\ t_rw x = true).
  { intros x Hx. cbn [lexec lexec1 rbind] in Hx. injection Hx as <-. unfold lmdb_begin, lmdb_insert. cbn [io_next]. change (0 =? 0) with true. rewrite semcheck_ready by (split; reflexivity).
    cbn [negb]. unfold mdb_put. cbn [t_io io_next]. change (0 =? 0) with true. cbn [negb set_io t_rw]. replace ((zlen k =? 0) || (zlen k >? LMDB_MAXKEY)) with false by lia. cbn [snd set_ret set_data set_io t_data t_io t_rw]. repeat split; auto. }
  split.
  - intros Hr. destruct (B Hr) as (t0 & E0 & _ & ->). destruct (P t0 E0) as (-> & _). split; [apply db_put_sorted; auto|]. intros. apply db_put_in. auto.
  - intros ->. destruct (P t HE) as (Q1 & Q2 & Q3 & Q4). unfold lmdb_commit in Ec. rewrite semcheck_ready in Ec by auto. cbn [negb set_cur t_io] in Ec. rewrite Q3 in Ec. cbn [io_next] in Ec. injection Ec as _ <-. reflexivity.
Qed.

Print Assumptions c53_atomic. Print Assumptions c53_find. Print Assumptions c53_copy_prefix. Print Assumptions c53_key_round_trip. Print Assumptions c53_quick_insert.
