(** C47: the pool of connections. *)
From Verif Require Import Base SockaddrModel SockaddrProps ConnPoolModel.
From Coq Require Import Sorting.Permutation.

(** ** Specification: the pool is a bag of connections, each with its addresses and the time it was put *)
Definition used (m : memb) : bool := negb (m_la m =? 0).
Definition pooled (p : pool) : list memb := filter used (p_conns p).
Definition memb_ok (m : memb) : Prop := m_la m = 0 \/ (0 < m_la m < 2 ^ 63 /\ m_fd m <> -1 /\ addr_ok (m_src m) /\ addr_ok (m_dst m)).
Definition pool_ok (p : pool) : Prop := p_usage p = zlen (pooled p) /\ Forall memb_ok (p_conns p).
Definition fits (m : memb) (src dst : sockaddr) : Prop := same_addr (m_dst m) dst false /\ same_addr (m_src m) src true.

Lemma time_cmp_lt : forall a b, 0 <= a -> 0 <= b -> (time_cmp a b < 0 <-> a <> 0 /\ (b = 0 \/ a < b)).
Proof. intros. unfold time_cmp. destruct (a =? b) eqn:E1; destruct (negb (a =? 0) && negb (b =? 0)) eqn:E2; destruct (a <? b) eqn:E3; lia. Qed.
Lemma filter_length_le : forall {A} (f : A -> bool) l, (length (filter f l) <= length l)%nat.
Proof. induction l; cbn [filter length]; auto. destruct (f a); cbn [length]; lia. Qed.
Lemma forallb_filter_id : forall {A} (f : A -> bool) l, forallb f l = true -> filter f l = l.
Proof. induction l; cbn [filter forallb]; auto. intros H. apply andb_true_iff in H. destruct H as [H1 H2]. rewrite H1, IHl; auto. Qed.
Lemma pooled_cap : forall p, zlen (pooled p) <= zlen (p_conns p).
Proof. intros p. unfold pooled, zlen. pose proof (filter_length_le used (p_conns p)). lia. Qed.

(** *** expiry *)
Definition older (o : Z) (m : memb) : bool := used m && ((o =? 0) || (m_la m <? o)).
Lemma memb_la : forall m, memb_ok m -> 0 <= m_la m.
Proof. intros m [->|(A & _)]; lia. Qed.
Lemma older_cmp : forall o m, memb_ok m -> 0 <= o -> (time_cmp (m_la m) o <? 0) = older o m.
Proof. intros o m H Ho. pose proof (memb_la m H). pose proof (time_cmp_lt (m_la m) o H0 Ho). unfold older, used. destruct (time_cmp (m_la m) o <? 0) eqn:E; lia. Qed.
Definition min_la (x : Z) (l : list memb) : Z := fold_left (fun n m => if used m && ((n =? 0) || (m_la m <? n)) then m_la m else n) l x.
Lemma old_loop_rest : forall l usage o fd next, Forall memb_ok l -> 0 <= o -> 0 <= next -> (fd <> -1 \/ forallb (fun m => negb (older o m)) l = true) ->
  get_old_loop l usage o fd next = Ok (l, usage, fd, min_la next l).
Proof.
  induction l as [|m l IH]; intros usage o fd next HL Ho Hn Hf; cbn [get_old_loop]; auto. inversion HL; subst. cbv zeta.
  assert (G : (fd =? FD_INVALID) && (time_cmp (m_la m) o <? 0) = false). { rewrite older_cmp by auto. unfold FD_INVALID. destruct Hf as [Hf|Hf]; [lia|]. cbn [forallb] in Hf. destruct (older o m); [discriminate|apply andb_false_r]. }
  rewrite G. rewrite IH; auto.
  - cbn [rbind]. unfold min_la. cbn [fold_left]. rewrite older_cmp by auto. reflexivity.
  - destruct (time_cmp (m_la m) next <? 0); auto. apply memb_la. auto.
  - destruct Hf as [Hf|Hf]; auto. cbn [forallb] in Hf. right. destruct (negb (older o m)); auto. discriminate.
Qed.
Lemma old_loop_pop : forall l usage o next, Forall memb_ok l -> 0 <= o -> 0 <= next -> zlen (filter used l) <= usage -> forallb (fun m => negb (older o m)) l = false ->
  exists l1 m l2, l = l1 ++ m :: l2 /\ older o m = true /\ get_old_loop l usage o FD_INVALID next = Ok (l1 ++ memb0 :: l2, usage - 1, m_fd m, min_la (min_la next l1) l2).
Proof.
  induction l as [|m l IH]; intros usage o next HL Ho Hn HU Hf; [discriminate|]. inversion HL; subst. cbn [get_old_loop]. cbv zeta. rewrite older_cmp by auto. unfold FD_INVALID at 1. change (-1 =? FD_INVALID) with true. cbn [andb].
  destruct (older o m) eqn:E.
  - exists [], m, l. split; auto. split; auto. assert (HM : used m = true) by (unfold older in E; apply andb_true_iff in E; tauto). unfold pool_pop, used in *. destruct (m_la m =? 0) eqn:E0; [discriminate|]. cbn [filter] in HU. unfold used in HU. rewrite E0 in HU. cbn [negb] in HU. rewrite zlen_cons in HU.
    match type of HU with context [zlen (?A :: ?B)] => pose proof (zlen_nonneg B) | context [1 + zlen ?B] => pose proof (zlen_nonneg B) end.
    replace (usage <=? 0) with false by lia. cbn [rbind]. rewrite old_loop_rest; auto. left. destruct H1 as [H1|H1]; [lia|tauto].
  - cbn [forallb] in Hf. rewrite E in Hf. cbn [negb andb] in Hf. rewrite older_cmp by auto. destruct (IH usage o (if older next m then m_la m else next)) as (l1 & x & l2 & -> & Hx & Eg); auto.
    + destruct (older next m); auto. apply memb_la. auto.
    + cbn [filter] in HU. destruct (used m); auto. rewrite zlen_cons in HU. lia.
    + exists (m :: l1), x, l2. split; auto. split; auto. rewrite Eg. reflexivity.
Qed.
Lemma filter_split : forall (l1 l2 : list memb) m, used m = true -> filter used (l1 ++ m :: l2) = filter used l1 ++ m :: filter used l2 /\ filter used (l1 ++ memb0 :: l2) = filter used l1 ++ filter used l2.
Proof. intros. rewrite !filter_app. cbn [filter]. rewrite H. split; reflexivity. Qed.
Lemma get_old_spec : forall p o, pool_ok p -> 0 <= o ->
  (exists m p' next, get_old p o = Ok (m_fd m, next, p') /\ older o m = true /\ In m (pooled p) /\ Permutation (pooled p) (m :: pooled p') /\ pool_ok p' /\ p_timeout p' = p_timeout p /\ zlen (p_conns p') = zlen (p_conns p)) \/
  (get_old p o = Ok (-1, min_la 0 (p_conns p), p) /\ forall m, In m (pooled p) -> older o m = false).
Proof.
  intros p o [HU HM] Ho. unfold get_old. destruct (forallb (fun m => negb (older o m)) (p_conns p)) eqn:E.
  - right. rewrite old_loop_rest by (auto; lia). cbn [rbind]. split; [destruct p; reflexivity|]. intros m Hm. unfold pooled in Hm. apply filter_In in Hm. rewrite forallb_forall in E. specialize (E m (proj1 Hm)). destruct (older o m); auto.
  - left. destruct (old_loop_pop (p_conns p) (p_usage p) o 0) as (l1 & m & l2 & El & Hm & Eg); auto; [lia|unfold pooled in HU; lia|]. rewrite Eg. cbn [rbind].
    assert (UM : used m = true) by (unfold older in Hm; apply andb_true_iff in Hm; tauto). destruct (filter_split l1 l2 m UM) as [F1 F2]. exists m, (mkpool (p_usage p - 1) (p_timeout p) (l1 ++ memb0 :: l2)), (min_la (min_la 0 l1) l2). split; [reflexivity|]. split; auto. unfold pooled, pool_ok. cbn [p_conns p_usage p_timeout]. rewrite F2, El, F1.
    split; [apply in_or_app; right; left; auto|]. split; [symmetry; apply Permutation_middle|]. split; [|split; [auto|rewrite !zlen_app, !zlen_cons; auto]]. unfold pooled in HU. rewrite El, F1 in HU. split.
    + unfold pooled. cbn [p_usage p_conns]. rewrite F2, HU, !zlen_app, zlen_cons. lia.
    + rewrite El in HM. apply Forall_app in HM. destruct HM as [M1 M2]. inversion M2; subst. apply Forall_app. split; auto. constructor; auto. left. reflexivity.
Qed.
Lemma closing_spec : forall fuel p o, pool_ok p -> 0 <= o -> (length (pooled p) < fuel)%nat ->
  exists ms next p', closing_loop fuel p o = Ok (map m_fd ms, next, p') /\ Permutation (pooled p) (ms ++ pooled p') /\ Forall (fun m => older o m = true) ms /\ (forall m, In m (pooled p') -> older o m = false) /\
  pool_ok p' /\ p_timeout p' = p_timeout p /\ next = min_la 0 (p_conns p') /\ zlen (p_conns p') = zlen (p_conns p).
Proof.
  induction fuel as [|fuel IH]; intros p o OK Ho Hf; [lia|]. cbn [closing_loop]. destruct (get_old_spec p o OK Ho) as [(m & p1 & next & E & Hm & Hi & HP & OK1 & HT & HC)|(E & HN)]; rewrite E; cbn [rbind].
  - assert (m_fd m <> -1). { destruct OK as [_ OK]. unfold pooled in Hi. apply filter_In in Hi. destruct Hi as [Hi Hu]. rewrite Forall_forall in OK. destruct (OK m Hi) as [X|X]; [unfold used in Hu; lia|tauto]. }
    replace (m_fd m =? FD_INVALID) with false by (unfold FD_INVALID; lia). cbn [negb]. destruct (IH p1 o OK1 Ho) as (ms & nx & p2 & E2 & HP2 & HF & HN & OK2 & HT2 & HX & HC2). { apply Permutation_length in HP. cbn [length] in HP. lia. }
    rewrite E2. cbn [rbind]. exists (m :: ms), nx, p2. split; [reflexivity|]. split; [|split; [constructor; auto|repeat (split; [auto; congruence|]); congruence]].
    rewrite HP. cbn [app]. apply perm_skip. auto.
  - change (negb (-1 =? FD_INVALID)) with false. exists [], (min_la 0 (p_conns p)), p. repeat (split; auto).
Qed.
Lemma min_la_spec : forall l x, Forall memb_ok l -> 0 <= x -> let r := min_la x l in (r = x \/ exists m, In m l /\ used m = true /\ r = m_la m) /\ (forall m, In m l -> used m = true -> r <> 0 /\ r <= m_la m) /\ (x <> 0 -> r <> 0 /\ r <= x) /\ 0 <= r.
Proof.
  induction l as [|m l IH]; intros x HL Hx r; subst r; unfold min_la; cbn [fold_left].
  - split; [auto|]. split; [intros ? []|]. split; lia.
  - inversion HL; subst. fold (min_la (if used m && ((x =? 0) || (m_la m <? x)) then m_la m else x) l). destruct (used m && ((x =? 0) || (m_la m <? x))) eqn:E.
    + apply andb_true_iff in E. destruct E as [E1 E2]. pose proof (memb_la m H1). destruct (IH (m_la m) H2 H) as (A & B & C & D). cbv zeta in *. assert (NZ : m_la m <> 0) by (unfold used in E1; lia). specialize (C NZ).
      split; [right; destruct A as [A|(y & A1 & A2 & A3)]; [exists m; split; [left; auto|auto]|exists y; split; [right; auto|auto]]|]. split; [intros y [->|Hy] Hu; [auto|apply B; auto]|]. split; [lia|auto].
    + destruct (IH x H2 Hx) as (A & B & C & D). cbv zeta in *. split; [destruct A as [A|(y & A1 & A2 & A3)]; [auto|right; exists y; split; [right; auto|auto]]|]. split; [|split; auto]. intros y [->|Hy] Hu; [|apply B; auto].
      rewrite Hu in E. cbn [andb] in E. assert (x <> 0 /\ x <= m_la y) by lia. specialize (C ltac:(tauto)). lia.
Qed.
(** One round of the closing thread closes exactly the connections not used for the timeout, and sleeps until the
    next of the remaining ones is due (or for the timeout if there is none). *)
Theorem c47_expire : forall p now, pool_ok p -> 0 < p_timeout p <= now -> now < 2 ^ 62 ->
  exists closed sleep p', closing_round (S (length (p_conns p))) p now = Ok (map m_fd closed, sleep, p') /\ Permutation (pooled p) (closed ++ pooled p') /\ pool_ok p' /\
  (forall m, In m closed -> m_la m + p_timeout p <= now) /\ (forall m, In m (pooled p') -> now < m_la m + p_timeout p) /\
  (forall m, In m (pooled p') -> 0 < sleep <= m_la m + p_timeout p - now) /\
  (pooled p' = [] -> sleep = p_timeout p) /\ (pooled p' <> [] -> exists m, In m (pooled p') /\ now + sleep = m_la m + p_timeout p).
Proof.
  intros p now OK HT HN. unfold closing_round. cbv zeta. replace (p_timeout p =? 0) with false by lia. replace (u64 (now - p_timeout p + 1)) with (now - p_timeout p + 1) by (unfold u64; rewrite Z.mod_small; lia).
  destruct (closing_spec (S (length (p_conns p))) p (now - p_timeout p + 1) OK) as (ms & next & p' & E & HP & HF & HR & OK' & HT' & HX & HC); [lia|pose proof (pooled_cap p); unfold zlen in *; lia|]. rewrite E. cbn [rbind].
  rewrite Forall_forall in HF. pose proof OK' as [OU OM]. destruct (min_la_spec (p_conns p') 0 OM) as (A & B & _ & D); [lia|]. cbv zeta in *. rewrite <- HX in *.
  assert (R : forall m, In m (pooled p') -> now < m_la m + p_timeout p). { intros m Hm. specialize (HR m Hm). unfold pooled in Hm. apply filter_In in Hm. destruct Hm as [_ Hu]. unfold older in HR. rewrite Hu in HR. cbn [andb] in HR. lia. }
  assert (LA : forall m, In m (pooled p') -> m_la m < 2 ^ 63). { intros m Hm. unfold pooled in Hm. apply filter_In in Hm. destruct Hm as [Hm Hu]. rewrite Forall_forall in OM. destruct (OM m Hm) as [X|X]; lia. }
  assert (NX : next <> 0 -> exists m, In m (pooled p') /\ next = m_la m). { intros H. destruct A as [A|(m & A1 & A2 & A3)]; [lia|]. exists m. split; auto. unfold pooled. apply filter_In. auto. }
  assert (SL : next <> 0 -> u64 (next + p_timeout p - now) = next + p_timeout p - now). { intros H. destruct (NX H) as (m & Hm & ->). specialize (R m Hm). specialize (LA m Hm). unfold u64. rewrite Z.mod_small; lia. }
  eexists ms, _, p'. split; [reflexivity|]. split; auto. split; auto.
  split. { intros m Hm. specialize (HF m Hm). unfold older in HF. lia. }
  split; auto. split.
  { intros m Hm. unfold pooled in Hm. apply filter_In in Hm. destruct (B m (proj1 Hm) (proj2 Hm)) as [N0 NL]. replace (next =? 0) with false by lia. rewrite SL by auto. destruct (NX N0) as (m2 & Hm2 & ->). specialize (R m2 Hm2). lia. }
  split.
  { intros HE. destruct (next =? 0) eqn:E0; auto. destruct NX as (m & Hm & _); [lia|]. rewrite HE in Hm. contradiction. }
  intros HE. destruct (next =? 0) eqn:E0.
  - destruct (pooled p') as [|m l] eqn:EP; [congruence|]. exfalso. assert (Hm : In m (pooled p')) by (rewrite EP; left; auto). unfold pooled in Hm. apply filter_In in Hm. destruct (B m (proj1 Hm) (proj2 Hm)). lia.
  - destruct NX as (m & Hm & Em); [lia|]. exists m. split; auto. rewrite SL by lia. lia.
Qed.
(** Deallocation closes everything. *)
Theorem c47_deinit : forall p, pool_ok p -> exists closed p', pool_deinit (S (length (p_conns p))) p = Ok (map m_fd closed, p') /\ Permutation (pooled p) closed /\ pooled p' = [].
Proof.
  intros p OK. unfold pool_deinit. destruct (closing_spec (S (length (p_conns p))) p 0 OK) as (ms & next & p' & E & HP & HF & HR & OK' & _); [lia|pose proof (pooled_cap p); unfold zlen in *; lia|]. rewrite E. cbn [rbind].
  assert (E0 : pooled p' = []). { destruct (pooled p') as [|m l] eqn:EP; auto. exfalso. specialize (HR m ltac:(left; auto)). assert (Hm : In m (pooled p')) by (rewrite EP; left; auto). unfold pooled in Hm. apply filter_In in Hm. unfold older in HR. rewrite (proj2 Hm) in HR. discriminate. }
  exists ms, p'. split; auto. rewrite E0, app_nil_r in HP. auto.
Qed.

(** *** get *)
Lemma get_loop_spec : forall l usage src dst, Forall memb_ok l -> addr_ok src -> addr_ok dst -> zlen (filter used l) <= usage ->
  (exists l1 m l2, l = l1 ++ m :: l2 /\ used m = true /\ fits m src dst /\ get_loop l usage src dst = Ok (m_fd m, l1 ++ memb0 :: l2, usage - 1)) \/
  (get_loop l usage src dst = Ok (-1, l, usage) /\ forall m, In m l -> used m = true -> ~ fits m src dst).
Proof.
  induction l as [|m l IH]; intros usage src dst HL Os Od HU; cbn [get_loop].
  - right. split; auto.
  - inversion HL; subst. destruct (negb (m_la m =? 0)) eqn:EU; pose proof EU as UM; fold (used m) in UM; cbn [andb].
    + destruct H1 as [H1|(L & F & A1 & A2)]; [lia|]. pose proof (c54_same (m_dst m) dst false A2 Od) as SD. pose proof (c54_same (m_src m) src true A1 Os) as SS.
      destruct ((sockaddr_cmp (m_dst m) dst false =? 0) && (sockaddr_cmp (m_src m) src true =? 0)) eqn:EM.
      * left. exists [], m, l. split; auto. split; auto. split; [unfold fits; split; [apply SD|apply SS]; lia|]. unfold pool_pop. destruct (m_la m =? 0); [discriminate|]. cbn [filter] in HU. rewrite UM in HU. rewrite zlen_cons in HU.
        pose proof (zlen_nonneg (filter used l)). replace (usage <=? 0) with false by lia. reflexivity.
      * assert (NF : ~ fits m src dst). { intros [F1 F2]. apply SD in F1. apply SS in F2. rewrite F1, F2 in EM. discriminate. }
        destruct (IH usage src dst H2 Os Od) as [(l1 & x & l2 & -> & A & B & C)|[C D]].
        { cbn [filter] in HU. rewrite UM in HU. rewrite zlen_cons in HU. lia. }
        { left. exists (m :: l1), x, l2. split; auto. split; auto. split; auto. rewrite C. reflexivity. }
        { right. rewrite C. split; auto. intros y [<-|Hy] Hu; auto. }
    + destruct (IH usage src dst H2 Os Od) as [(l1 & x & l2 & -> & A & B & C)|[C D]].
      { cbn [filter] in HU. rewrite UM in HU. auto. }
      { left. exists (m :: l1), x, l2. split; auto. split; auto. split; auto. rewrite C. reflexivity. }
      { right. rewrite C. split; auto. intros y [<-|Hy] Hu; auto. unfold used in Hu. congruence. }
Qed.
(** Getting a connection: one that was put for the same addresses is taken out of the pool and returned (or
    closed, if it is no longer usable); nothing is returned only if there is no such connection. *)
Theorem c47_get : forall p src dst invalid, pool_ok p -> addr_ok src -> addr_ok dst ->
  (exists m p', fits m src dst /\ Permutation (pooled p) (m :: pooled p') /\ pool_ok p' /\ p_timeout p' = p_timeout p /\ zlen (p_conns p') = zlen (p_conns p) /\
     pool_get p src dst invalid = Ok (if invalid (m_fd m) then (-1, [m_fd m], p') else (m_fd m, [], p'))) \/
  ((forall m, In m (pooled p) -> ~ fits m src dst) /\ pool_get p src dst invalid = Ok (-1, [], p)).
Proof.
  intros p src dst invalid OK Os Od. pose proof OK as [HU HM]. unfold pool_get. destruct (get_loop_spec (p_conns p) (p_usage p) src dst HM Os Od) as [(l1 & m & l2 & E & Hu & Hf & Eg)|[Eg HN]]; [unfold pooled in HU; lia| |]; rewrite Eg; cbn [rbind].
  - left. destruct (filter_split l1 l2 m Hu) as [F1 F2]. exists m, (mkpool (p_usage p - 1) (p_timeout p) (l1 ++ memb0 :: l2)). split; auto. unfold pool_ok, pooled in *. cbn [p_conns p_usage p_timeout]. rewrite E, F1, F2 in *.
    split; [symmetry; apply Permutation_middle|]. split; [split|].
    + rewrite HU, !zlen_app, zlen_cons. lia.
    + apply Forall_app in HM. destruct HM as [M1 M2]. inversion M2; subst. apply Forall_app. split; auto. constructor; auto. left. reflexivity.
    + split; auto. split; [rewrite !zlen_app, !zlen_cons; auto|]. assert (m_fd m <> -1). { apply Forall_app in HM. destruct HM as [M1 M2]. inversion M2; subst. destruct H1 as [X|X]; [unfold used in Hu; lia|tauto]. }
      replace (m_fd m =? FD_INVALID) with false by (unfold FD_INVALID; lia). cbn [negb andb]. destruct (invalid (m_fd m)); reflexivity.
  - right. split; [|destruct p; reflexivity]. intros m Hm. unfold pooled in Hm. apply filter_In in Hm. apply HN; tauto.
Qed.

(** *** put *)
Lemma put_loop_spec : forall l i ot oi, Forall memb_ok l -> 0 <= ot ->
  (exists l1 m l2, l = l1 ++ m :: l2 /\ used m = false /\ put_loop l i ot oi = (true, i + zlen l1)) \/
  (Forall (fun m => used m = true) l /\ ((put_loop l i ot oi = (false, oi) /\ (forall m, In m l -> ot <> 0 /\ ot <= m_la m)) \/
    exists l1 m l2, l = l1 ++ m :: l2 /\ put_loop l i ot oi = (false, i + zlen l1) /\ (forall x, In x l -> m_la m <= m_la x) /\ (ot = 0 \/ m_la m < ot))).
Proof.
  induction l as [|m l IH]; intros i ot oi HL Ho; cbn [put_loop].
  - right. split; auto. left. split; auto. intros m [].
  - inversion HL; subst. cbv zeta. destruct (m_la m =? 0) eqn:E0.
    + left. exists [], m, l. split; auto. split; [unfold used; rewrite E0; auto|]. rewrite zlen_nil, Z.add_0_r. auto.
    + pose proof (memb_la m H1). rewrite older_cmp by auto. assert (HU : used m = true) by (unfold used; rewrite E0; auto). unfold older. rewrite HU. cbn [andb]. destruct ((ot =? 0) || (m_la m <? ot)) eqn:E1.
      * destruct (IH (i + 1) (m_la m) i H2 H) as [(l1 & x & l2 & -> & A & B)|(A & [[B C]|(l1 & x & l2 & -> & B & C & D)])].
        { left. exists (m :: l1), x, l2. rewrite zlen_cons. split; auto. split; auto. rewrite B. f_equal. lia. }
        { right. split; [constructor; auto|]. right. exists [], m, l. split; auto. rewrite zlen_nil. rewrite B. split; [f_equal; lia|]. split; [|lia]. intros x [<-|Hx]; [lia|]. apply C; auto. }
        { right. split; [constructor; auto|]. right. exists (m :: l1), x, l2. split; auto. rewrite zlen_cons, B. split; [f_equal; lia|]. split; [|lia]. intros y [<-|Hy]; [lia|]. apply C; auto. }
      * destruct (IH (i + 1) ot oi H2 Ho) as [(l1 & x & l2 & -> & A & B)|(A & [[B C]|(l1 & x & l2 & -> & B & C & D)])].
        { left. exists (m :: l1), x, l2. rewrite zlen_cons. split; auto. split; auto. rewrite B. f_equal. lia. }
        { right. split; [constructor; auto|]. left. split; auto. intros x [<-|Hx]; [lia|]. apply C; auto. }
        { right. split; [constructor; auto|]. right. exists (m :: l1), x, l2. split; auto. rewrite zlen_cons, B. split; [f_equal; lia|]. split; [|auto]. intros y [<-|Hy]; [lia|]. apply C; auto. }
Qed.
Lemma zset_split : forall (l1 l2 : list memb) m x, zget (l1 ++ m :: l2) (zlen l1) = Some m /\ zset (l1 ++ m :: l2) (zlen l1) x = l1 ++ x :: l2.
Proof.
  intros. split; [rewrite zget_app_r by lia; rewrite Z.sub_diag; reflexivity|]. unfold zset, zfirstn, zskipn. replace (Z.to_nat (zlen l1 + 1)) with (S (length l1)) by (unfold zlen; lia). replace (Z.to_nat (zlen l1)) with (length l1) by (unfold zlen; lia).
  rewrite firstn_app, firstn_all, Nat.sub_diag. cbn [firstn]. rewrite app_nil_r. f_equal. f_equal. rewrite skipn_app. rewrite skipn_all2 by lia. replace (S (length l1) - length l1)%nat with 1%nat by lia. reflexivity.
Qed.
(** Putting a connection: it is stored, in a free slot if there is one; otherwise it displaces, and the caller
    gets back, the connection put longest ago. *)
Theorem c47_put : forall p src dst fd now, pool_ok p -> p_conns p <> [] -> addr_ok src -> addr_ok dst -> fd <> -1 -> 0 < now < 2 ^ 63 ->
  exists p', pool_ok p' /\ p_timeout p' = p_timeout p /\ zlen (p_conns p') = zlen (p_conns p) /\
  ((zlen (pooled p) < zlen (p_conns p) /\ pool_put p src dst fd now = Ok (-1, p') /\ Permutation (pooled p') (mkmemb src dst fd now :: pooled p)) \/
   (zlen (pooled p) = zlen (p_conns p) /\ exists old, pool_put p src dst fd now = Ok (m_fd old, p') /\ (forall m, In m (pooled p) -> m_la old <= m_la m) /\
     Permutation (old :: pooled p') (mkmemb src dst fd now :: pooled p))).
Proof.
  intros p src dst fd now OK HN Os Od Hfd Hnow. pose proof OK as [HU HM]. set (new := mkmemb src dst fd now).
  assert (UN : used new = true) by (unfold used, new; cbn [m_la]; lia). assert (ON : memb_ok new) by (right; cbn [new m_la m_fd m_src m_dst]; auto). pose proof (pooled_cap p) as PC.
  assert (CZ : zlen (p_conns p) <> 0) by (destruct (p_conns p); [congruence|rewrite zlen_cons; pose proof (zlen_nonneg l); lia]). unfold pool_put. cbv zeta. replace (zlen (p_conns p) =? 0) with false by lia.
  destruct (put_loop_spec (p_conns p) 0 0 (zlen (p_conns p)) HM ltac:(lia)) as [(l1 & m & l2 & E & Hm & Ep)|(HA & [[Ep HX]|(l1 & m & l2 & E & Ep & HX & _)])].
  - rewrite Ep, Z.add_0_l. destruct (zset_split l1 l2 m new) as [G1 G2]. rewrite <- E in G1, G2. rewrite G1. assert (FL : filter used (p_conns p) = filter used l1 ++ filter used l2) by (rewrite E, filter_app; cbn [filter]; rewrite Hm; auto).
    assert (LT : zlen (pooled p) < zlen (p_conns p)). { unfold pooled. rewrite FL, E, !zlen_app, zlen_cons. pose proof (filter_length_le used l1). pose proof (filter_length_le used l2). unfold zlen. lia. }
    unfold pool_push. unfold used in Hm. rewrite Hm. replace (p_usage p >=? zlen (p_conns p)) with false by lia. cbn [rbind]. exists (mkpool (p_usage p + 1) (p_timeout p) (l1 ++ new :: l2)). unfold pool_ok, pooled. cbn [p_conns p_usage p_timeout].
    assert (FN : filter used (l1 ++ new :: l2) = filter used l1 ++ new :: filter used l2) by (rewrite filter_app; cbn [filter]; rewrite UN; auto). rewrite FN.
    split; [split|].
    + rewrite HU. unfold pooled. rewrite FL, !zlen_app, zlen_cons. lia.
    + rewrite E in HM. apply Forall_app in HM. destruct HM as [M1 M2]. inversion M2; subst. apply Forall_app. split; auto.
    + split; auto. split; [rewrite E, !zlen_app, !zlen_cons; auto|]. left. split; auto. split; [rewrite <- G2; reflexivity|]. rewrite FL. symmetry. apply Permutation_middle.
  - exfalso. destruct (p_conns p) as [|m l] eqn:E; [congruence|]. destruct (HX m ltac:(left; auto)). lia.
  - rewrite Ep, Z.add_0_l. destruct (zset_split l1 l2 m new) as [G1 G2]. rewrite <- E in G1, G2. rewrite G1.
    assert (FA : filter used (p_conns p) = p_conns p) by (clear - HA; induction HA; cbn [filter]; auto; rewrite H, IHHA; auto).
    assert (EQ : zlen (pooled p) = zlen (p_conns p)) by (unfold pooled; rewrite FA; auto).
    assert (Um : used m = true) by (rewrite Forall_forall in HA; apply HA; rewrite E; apply in_or_app; right; left; auto). unfold pool_pop. unfold used in Um. destruct (m_la m =? 0); [discriminate|].
    pose proof (zlen_nonneg (p_conns p)). replace (p_usage p <=? 0) with false by lia. cbn [rbind]. unfold pool_push. change (negb (m_la memb0 =? 0)) with false. cbn iota. replace (p_usage p - 1 >=? zlen (p_conns p)) with false by lia. cbn [rbind].
    exists (mkpool (p_usage p - 1 + 1) (p_timeout p) (l1 ++ new :: l2)). unfold pool_ok, pooled in *. cbn [p_conns p_usage p_timeout]. rewrite FA in *.
    assert (FN : filter used (l1 ++ new :: l2) = l1 ++ new :: l2). { rewrite E in FA. rewrite filter_app in *. cbn [filter] in *. rewrite UN. rewrite E in HA. apply Forall_app in HA. destruct HA as [A1 A2]. inversion A2; subst. f_equal; [|f_equal]; apply forallb_filter_id; apply forallb_forall; apply Forall_forall; auto. }
    rewrite FN. assert (ZL : zlen (l1 ++ new :: l2) = zlen (p_conns p)) by (rewrite E, !zlen_app, !zlen_cons; auto).
    split; [split|].
    + lia.
    + rewrite E in HM. apply Forall_app in HM. destruct HM as [M1 M2]. inversion M2; subst. apply Forall_app. split; auto.
    + split; auto. split; auto. right. split; auto. exists m. split; [rewrite <- G2; reflexivity|]. split; auto. rewrite E.
      rewrite <- (Permutation_middle l1 l2 new), <- (Permutation_middle l1 l2 m). apply perm_swap.
Qed.

(** ** Histories *)
Inductive pop_ : Type := OPut (src dst : sockaddr) (fd now : Z) | OGet (src dst : sockaddr) (invalid : Z -> bool) | ORound (now : Z) | OTimeout (n : Z).
(** what leaves the pool: handed to the caller asking for the addresses, closed, or displaced (returned by put) *)
Inductive out : Type := Handed (src dst : sockaddr) (fd : Z) | Closed (fd : Z) | Displaced (fd : Z).
Definition pstep (p : pool) (o : pop_) : res (list out * pool) :=
  match o with
  | OPut src dst fd now => let* (r, p) := pool_put p src dst fd now in Ok ((if r =? -1 then [] else [Displaced r]), p)
  | OGet src dst invalid => let* (r, cl, p) := pool_get p src dst invalid in Ok ((if r =? -1 then [] else [Handed src dst r]) ++ map Closed cl, p)
  | ORound now => let* (cl, _, p) := closing_round (S (length (p_conns p))) p now in Ok (map Closed cl, p)
  | OTimeout n => Ok ([], snd (pool_timeout p n))
  end.
Fixpoint prun (p : pool) (l : list pop_) : res (list out * pool) :=
  match l with [] => Ok ([], p) | o :: l => let* (a, p) := pstep p o in let* (b, p) := prun p l in Ok (a ++ b, p) end.
Definition Tmax : Z := 10 ^ 9.
Definition pop_ok (o : pop_) : Prop :=
  match o with
  | OPut src dst fd now => addr_ok src /\ addr_ok dst /\ fd <> -1 /\ 0 < now < 2 ^ 62
  | OGet src dst _ => addr_ok src /\ addr_ok dst
  | ORound now => Tmax <= now < 2 ^ 62
  | OTimeout n => 0 <= n <= Tmax
  end.
Definition puts (l : list pop_) : list memb := flat_map (fun o => match o with OPut src dst fd now => [mkmemb src dst fd now] | _ => [] end) l.
(** [m] is the connection that left the pool as [o] *)
Definition explains (o : out) (m : memb) : Prop :=
  match o with Handed src dst fd => m_fd m = fd /\ fits m src dst | Closed fd | Displaced fd => m_fd m = fd end.
Lemma in_pooled_fd : forall p m, pool_ok p -> In m (pooled p) -> m_fd m <> -1.
Proof. intros p m [_ OK] Hi. unfold pooled in Hi. apply filter_In in Hi. destruct Hi as [Hi Hu]. rewrite Forall_forall in OK. destruct (OK m Hi) as [X|X]; [unfold used in Hu; lia|tauto]. Qed.
Lemma step_spec : forall p o, pool_ok p -> p_conns p <> [] -> 0 < p_timeout p <= Tmax -> pop_ok o ->
  exists outs p' ms, pstep p o = Ok (outs, p') /\ pool_ok p' /\ zlen (p_conns p') = zlen (p_conns p) /\ 0 < p_timeout p' <= Tmax /\ Forall2 explains outs ms /\ Permutation (puts [o] ++ pooled p) (ms ++ pooled p').
Proof.
  intros p o OK HN HT Ho. destruct o as [src dst fd now|src dst invalid|now|n]; cbn [pstep pop_ok] in *.
  - destruct Ho as (O1 & O2 & O3 & O4). destruct (c47_put p src dst fd now OK HN O1 O2 O3) as (p' & OK' & T' & C' & [(_ & E & HP)|(_ & old & E & _ & HP)]); [lia| |]; rewrite E; cbn [rbind].
    + exists [], p', []. split; auto. split; auto. split; auto. split; [lia|]. split; auto. cbn [puts flat_map app]. symmetry. auto.
    + assert (m_fd old <> -1). { assert (Hi : In old (mkmemb src dst fd now :: pooled p)) by (eapply Permutation_in; [exact HP|left; auto]). destruct Hi as [<-|Hi]; [auto|]. apply (in_pooled_fd p old OK Hi). }
      replace (m_fd old =? -1) with false by lia. exists [Displaced (m_fd old)], p', [old]. split; auto. split; auto. split; auto. split; [lia|]. split; [repeat constructor; reflexivity|]. cbn [puts flat_map app]. symmetry. auto.
  - destruct Ho as (O1 & O2). destruct (c47_get p src dst invalid OK O1 O2) as [(m & p' & HF & HP & OK' & T' & C' & E)|(_ & E)]; rewrite E.
    + assert (m_fd m <> -1) by (apply (in_pooled_fd p); auto; eapply Permutation_in; [symmetry; exact HP|left; auto]). destruct (invalid (m_fd m)); cbn [rbind].
      * change (-1 =? -1) with true. exists [Closed (m_fd m)], p', [m]. split; auto. split; auto. split; auto. split; [lia|]. split; [repeat constructor|]. auto.
      * replace (m_fd m =? -1) with false by lia. exists [Handed src dst (m_fd m)], p', [m]. split; auto. split; auto. split; auto. split; [lia|]. split; [repeat constructor; apply HF|]. auto.
    + cbn [rbind]. exists [], p, []. repeat (split; auto).
  - destruct (c47_expire p now OK) as (cl & sl & p' & E & HP & OK' & _); [lia|lia|]. pose proof (closing_spec (S (length (p_conns p))) p (u64 (now - p_timeout p + 1)) OK) as CS. destruct CS as (ms & nx & p2 & E2 & _ & _ & _ & _ & HT2 & _ & HC2); [unfold u64; apply Z.mod_pos_bound; lia|pose proof (pooled_cap p); unfold zlen in *; lia|].
    assert (p2 = p'). { unfold closing_round in E. cbv zeta in E. destruct (p_timeout p =? 0); [discriminate|]. rewrite E2 in E. cbn [rbind] in E. congruence. } subst p2.
    rewrite E. cbn [rbind]. exists (map Closed (map m_fd cl)), p', cl. split; auto. split; auto. split; auto. split; [lia|]. split; [clear; induction cl; cbn [map]; constructor; auto; reflexivity|]. auto.
  - exists [], (snd (pool_timeout p n)), []. unfold pool_timeout. cbn [snd]. destruct (n =? 0) eqn:E; cbn [negb]; (split; [reflexivity|]); (split; [exact OK|]); (split; [reflexivity|]); (split; [cbn [p_timeout]; lia|]); split; auto.
Qed.
(** Every history: nothing undefined happens, the pool stays within its capacity, and every connection put was
    handed out once for the addresses it was put with, or closed once, or displaced once, or is in the pool. *)
Theorem c47_history : forall capacity timeout ops, 0 < capacity -> 0 < timeout <= Tmax -> Forall pop_ok ops ->
  exists p0 outs p ms, pool_init capacity timeout = Some p0 /\ prun p0 ops = Ok (outs, p) /\ pool_ok p /\ zlen (p_conns p) = capacity /\ p_usage p <= capacity /\
  Forall2 explains outs ms /\ Permutation (puts ops) (ms ++ pooled p).
Proof.
  intros capacity timeout ops HC HT HO. unfold pool_init. replace ((capacity =? 0) || (timeout =? 0)) with false by lia. set (p0 := mkpool 0 timeout (repeat memb0 (Z.to_nat capacity))).
  assert (F0 : forall n, filter used (repeat memb0 n) = []) by (induction n; cbn [repeat filter]; auto).
  assert (G : forall ops p, Forall pop_ok ops -> pool_ok p -> zlen (p_conns p) = capacity -> 0 < p_timeout p <= Tmax -> exists outs p' ms, prun p ops = Ok (outs, p') /\ pool_ok p' /\ zlen (p_conns p') = capacity /\ Forall2 explains outs ms /\ Permutation (puts ops ++ pooled p) (ms ++ pooled p')).
  { clear HO ops. induction ops as [|o ops IH]; intros p HO OK HZ HP; cbn [prun].
    - exists [], p, []. repeat (split; auto).
    - inversion HO; subst. assert (p_conns p <> []) by (intros X; rewrite X, zlen_nil in HC; lia). destruct (step_spec p o OK H HP H1) as (o1 & p1 & m1 & E1 & OK1 & Z1 & T1 & X1 & Q1). rewrite E1. cbn [rbind].
      destruct (IH p1 H2 OK1 Z1 T1) as (o2 & p2 & m2 & E2 & OK2 & Z2 & X2 & Q2). rewrite E2. cbn [rbind]. exists (o1 ++ o2), p2, (m1 ++ m2). split; auto. split; auto. split; auto. split; [apply Forall2_app; auto|].
      change (puts (o :: ops)) with (puts [o] ++ puts ops) || (unfold puts; cbn [flat_map]; rewrite ?app_nil_r). 
      transitivity (puts ops ++ (puts [o] ++ pooled p)). { unfold puts. cbn [flat_map]. rewrite app_nil_r. rewrite !app_assoc. apply Permutation_app_tail. apply Permutation_app_comm. }
      rewrite Q1. rewrite <- app_assoc. rewrite <- Q2. rewrite !app_assoc. apply Permutation_app_tail. apply Permutation_app_comm. }
  destruct (G ops p0 HO) as (outs & p & ms & E & OK & HZ & HX & HP).
  - split; [unfold pooled, p0; cbn [p_usage p_conns]; rewrite F0; reflexivity|]. apply Forall_forall. intros m Hm. cbn [p_conns p0] in Hm. apply repeat_spec in Hm. subst. left. reflexivity.
  - unfold p0, zlen. cbn [p_conns]. rewrite repeat_length. lia.
  - exact HT.
  - exists p0, outs, p, ms. split; auto. split; auto. split; auto. split; auto. split; [destruct OK as [OU _]; pose proof (pooled_cap p); lia|]. split; auto. unfold pooled in HP at 1. cbn [p0 p_conns] in HP. rewrite F0, app_nil_r in HP. auto.
Qed.
Example c47_history_case : let a := SIn4 [10; 0; 0; 1] [0; 53] in let b := SIn4 [10; 0; 0; 2] [0; 53] in
  match pool_init 2 30 with
  | Some p0 => match prun p0 [OPut SUnspec a 5 2000000000; OPut SUnspec b 6 2000000001; OPut SUnspec b 7 2000000002; OGet SUnspec b (fun _ => false); ORound 2000000032] with Ok (o, p) => o = [Displaced 5; Handed SUnspec b 7; Closed 6] /\ pooled p = [] | _ => False end
  | None => False end.
Proof. split; reflexivity. Qed.
Print Assumptions c47_history.
Print Assumptions c47_expire.
