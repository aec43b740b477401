From Verif Require Import Base WireModel WireProofs WireProps DnameModel DnameSpec DnameProofs DnameProofs2 DnameProofs4 LmdbModel LmdbProofs LmdbProofs2 LmdbProps KeyModel SerialModel KaspModel KaspSpec KaspProofs KaspProofs2.
From Coq Require Import Sorting.Sorted.

(** Facts put and removed *)
Lemma rep_empty : represents [] (fun _ _ => False).
Proof. split; [constructor|]. split; [|split; intros; contradiction]. intros k v. split; [intros []|intros (s & c & H & _); exact H]. Qed.
Lemma rep_put : forall d st s c, represents d st -> subject_ok s -> content_ok s c -> represents (db_put d (kenc s) (venc c)) (put st s c).
Proof.
  intros d st s c (So & I & Ok1 & Fn) Hs Hc. split; [apply db_put_sorted; exact So|]. split; [|split].
  - intros k v. rewrite db_put_in by exact So. split.
    + intros [(-> & ->)|(N & H)]; [exists s, c; split; [left; split; reflexivity|split; reflexivity]|]. apply I in H. destruct H as (s' & c' & H & -> & ->). exists s', c'. split; [right; split; [intros ->; apply N; reflexivity|exact H]|split; reflexivity].
    + intros (s' & c' & [(-> & ->)|(N & H)] & -> & ->); [left; split; reflexivity|]. right. split; [|apply I; exists s', c'; split; [exact H|split; reflexivity]].
      intros E. apply kenc_inj in E; [contradiction|apply (Ok1 s' c' H)|exact Hs].
  - intros s' c' [(-> & ->)|(N & H)]; [split; assumption|apply Ok1; exact H].
  - intros s' c1 c2 [(-> & ->)|(N & H)] [(E & ->)|(N' & H')]; [reflexivity|contradiction|contradiction|]. apply (Fn s'); assumption.
Qed.
Lemma rep_filter : forall d st sel gone, represents d st -> (forall s, subject_ok s -> (sel (kenc s) = true <-> gone s)) ->
  represents (filter (fun x => negb (sel (fst x))) d) (without st gone).
Proof.
  intros d st sel gone (So & I & Ok1 & Fn) G. split; [apply sorted_filter; exact So|]. split; [|split].
  - intros k v. rewrite filter_In. cbn [fst]. split.
    + intros (H & N). apply I in H. destruct H as (s & c & H & -> & ->). exists s, c. split; [|split; reflexivity]. split; [exact H|]. intros C. apply G in C; [|apply (Ok1 s c H)]. rewrite C in N. discriminate N.
    + intros (s & c & (H & N) & -> & ->). split; [apply I; exists s, c; split; [exact H|split; reflexivity]|]. destruct (sel (kenc s)) eqn:E; [|reflexivity]. exfalso. apply N. apply G; [apply (Ok1 s c H)|exact E].
  - intros s c (H & _). apply Ok1. exact H.
  - intros s c c' (H & _) (H' & _). apply (Fn s); assumption.
Qed.
Lemma rep_in : forall d st s c, represents d st -> st s c -> In (kenc s, venc c) d.
Proof. intros d st s c (_ & I & _) H. apply I. exists s, c. split; [exact H|split; reflexivity]. Qed.
Lemma rep_find : forall d st s v, represents d st -> subject_ok s -> In (kenc s, v) d -> exists c, st s c /\ v = venc c /\ content_ok s c.
Proof.
  intros d st s v (_ & I & Ok1 & _) Hs H. apply I in H. destruct H as (s' & c & H & E & ->). apply kenc_inj in E; [|exact Hs|apply (Ok1 s' c H)]. subst s'. exists c. split; [exact H|]. split; [reflexivity|apply Ok1; exact H].
Qed.
Lemma rep_none : forall d st s, represents d st -> (forall v, ~ In (kenc s, v) d) -> forall c, ~ st s c.
Proof. intros d st s R N c H. apply (N (venc c)). apply (rep_in d st s c R H). Qed.
Lemma kenc_nonempty : forall s, subject_ok s -> kenc s <> [].
Proof. intros s H E. apply kenc_len in H. rewrite E in H. change (zlen []) with 0 in H. lia. Qed.
Lemma key_prefix : forall z id s, zone_ok z -> string_ok id -> subject_ok s -> (is_prefix_of (kenc (SubKey z id)) (kenc s) = true <-> s = SubKey z id).
Proof. intros z id s Hz Hi Hs. rewrite is_prefix_of_iff. apply starts_key; assumption. Qed.

(** Ends of transactions *)
Lemma finish : forall t d d1 io, live t d1 true io \/ dead t io -> exists d' t', lmdb_commit d t = (d', t') /\ (t_ret t' = 0 -> d' = d1) /\ (t_ret t' <> 0 -> d' = d) /\ (io = [] -> t_ret t' = 0).
Proof.
  intros t d d1 io [L|(A & B)].
  - destruct (commit_step t d d1 io L) as (t' & E & H). exists (if t_ret t' =? KNOT_EOK then d1 else d), t'. split; [exact E|]. unfold KNOT_EOK in *. destruct (t_ret t' =? 0) eqn:E0; (split; [intros; try reflexivity; lia|split; [intros; try reflexivity; lia|exact H]]).
  - destruct (commit_failed t d A) as (t' & E & H). exists d, t'. rewrite H. split; [exact E|]. unfold KNOT_EOK in A. split; [intros; contradiction|]. split; [intros; reflexivity|]. intros; contradiction.
Qed.
Lemma insert_any : forall t d io k v, live t d true io \/ dead t io -> 0 < zlen k <= LMDB_MAXKEY -> let t' := snd (lmdb_insert t (Some k) v) in live t' (db_put d k v) true io \/ dead t' io.
Proof. intros t d io k v [H|H] Hk; [apply insert_step; assumption|right; apply insert_failed; exact H]. Qed.
Lemma del_any : forall t d io p fuel, live t d true io \/ dead t io -> sorted d -> p <> [] -> (length d < fuel)%nat ->
  exists t', lmdb_del_prefix fuel t p = Ok t' /\ (live t' (filter (fun x => negb (is_prefix_of p (fst x))) d) true io \/ dead t' io).
Proof.
  intros t d io p fuel [H|H] So Hp Hf; [apply del_step; assumption|]. destruct (del_failed t io p fuel H) as (t' & E & D); [lia|]. exists t'. split; [exact E|right; exact D].
Qed.
Lemma filter_filter : forall (A : Type) (f g : A -> bool) l, filter f (filter g l) = filter (fun x => g x && f x) l.
Proof. intros A f g. induction l as [|x l IH]; [reflexivity|]. cbn [filter]. destruct (g x); cbn [filter andb]; rewrite IH; reflexivity. Qed.
Lemma filter_len : forall (A : Type) (f : A -> bool) l, (length (filter f l) <= length l)%nat.
Proof. intros A f. induction l as [|x l IH]; cbn [filter length]; [lia|]. destruct (f x); cbn [length]; lia. Qed.
Lemma classes_step : forall rest classes t d io fuel, live t d true io \/ dead t io -> sorted d -> (length d < fuel)%nat ->
  exists t', delete_classes fuel t rest classes = Ok t' /\ (live t' (filter (fun x => negb (existsb (fun c => is_prefix_of (c :: rest) (fst x)) classes)) d) true io \/ dead t' io).
Proof.
  intros rest. induction classes as [|c classes IH]; intros t d io fuel H So Hf; cbn [delete_classes existsb].
  - exists t. split; [reflexivity|]. rewrite filter_all by (intros; reflexivity). exact H.
  - destruct (del_any t d io (c :: rest) fuel H So ltac:(discriminate) Hf) as (t1 & E & H1). rewrite E. cbn [rbind].
    pose proof (filter_len _ (fun x : list Z * list Z => negb (is_prefix_of (c :: rest) (fst x))) d) as Hl.
    destruct (IH t1 _ io fuel H1 (sorted_filter _ _ So) ltac:(lia)) as (t2 & E2 & H2). exists t2. split; [exact E2|]. rewrite filter_filter in H2.
    assert (Ef : filter (fun x : list Z * list Z => negb (is_prefix_of (c :: rest) (fst x)) && negb (existsb (fun c0 => is_prefix_of (c0 :: rest) (fst x)) classes)) d =
                 filter (fun x => negb (is_prefix_of (c :: rest) (fst x) || existsb (fun c0 => is_prefix_of (c0 :: rest) (fst x)) classes)) d) by (apply filter_ext; intros x; rewrite negb_orb; reflexivity).
    rewrite Ef in H2. exact H2.
Qed.

(** Who else has the key *)
Definition holds_id (id k : list Z) : bool := match unmake_key_str k with Ok (Some f) => bytes_eqb f id | _ => false end.
Lemma fold_used : forall id l u, fold_kv (fun (u : bool) (k v : list Z) => u || holds_id id k) l u = u || existsb (fun x => holds_id id (fst x)) l.
Proof.
  intros id. unfold fold_kv. induction l as [|x l IH]; intros u; cbn [fold_left existsb]; [rewrite orb_false_r; reflexivity|]. rewrite IH. rewrite orb_assoc. reflexivity.
Qed.
Lemma class_prefix : forall c s, is_prefix_of [c] (kenc s) = true <-> class_of s = c.
Proof. intros c s. rewrite is_prefix_of_iff. split; [intros (r & E); destruct s; cbn [kenc app class_of] in *; injection E as E _; congruence|]. intros <-. destruct s; cbn [kenc class_of app]; eexists; reflexivity. Qed.
Lemma inuse_step : forall t d st io id fuel, live t d true io -> represents d st -> string_ok id -> (length d < fuel)%nat ->
  exists u t', keyid_inuse fuel t id = Ok (u, t') /\ (live t' d true io /\ (u = true <-> exists z p, st (SubKey z id) (IsKey p)) \/ dead t' io).
Proof.
  intros t d st io id fuel (R & D & W & S & N) Rp Hi Hf. unfold keyid_inuse. pose proof Rp as (So & I & Ok1 & _).
  set (P := fun (k v : list Z) => exists z i, zone_ok z /\ string_ok i /\ k = kenc (SubKey z i)).
  assert (HB : body_ok_on P (fun (u : bool) k v => u || holds_id id k) (fun _ _ => true) false (inuse_body id)).
  { intros u t0 k v (z & i & Hz & Hi' & Ek) R0 S0 So0 C CK CV. unfold inuse_body. rewrite CK. unfold holds_id. rewrite Ek. rewrite unmake_str by assumption. cbn [rbind]. exists t0. split; [reflexivity|]. left. subst k. auto 8. }
  assert (HP : forall k v, In (k, v) (t_data t) -> is_prefix_of [KC_PARAMS] k = true -> P k v).
  { intros k v H Hp. rewrite D in H. apply I in H. destruct H as (s & c & H & -> & ->). apply class_prefix in Hp. destruct s; try discriminate Hp. apply Ok1 in H. destruct H as ((Hz & Hi') & _). exists z, id0. auto. }
  assert (Hf' : (length (t_data t) < fuel)%nat) by (rewrite D; exact Hf). assert (So' : sorted (t_data t)) by (rewrite D; exact So).
  destruct (foreach_spec_on _ P _ _ _ _ [KC_PARAMS] HB fuel false t Hf' R S So' HP) as (u & t' & E & H). rewrite E. exists u, t'. split; [reflexivity|]. destruct H as [(A & B & C & F & G & K)|(A & B)].
  - left. split.
    + split; [exact A|]. split; [|split; [congruence|split; [exact G|auto]]]. rewrite C, D. unfold kept. apply filter_all. intros x _. unfold keepf. apply orb_true_r.
    + rewrite B, fold_used, D. cbn [orb]. rewrite existsb_exists. split.
      * intros ((k & v) & H & Hh). apply filter_In in H. destruct H as (H & Hp). unfold inp in Hp. cbn [fst] in *. apply I in H. destruct H as (s & c & H & -> & ->). apply class_prefix in Hp. destruct s; try discriminate Hp.
        pose proof (Ok1 _ _ H) as ((Hz & Hi') & Hc). unfold holds_id in Hh. rewrite unmake_str in Hh by assumption. apply bytes_eqb_eq in Hh. subst id0. destruct c; try contradiction. exists z, p. exact H.
      * intros (z & p & H). exists (kenc (SubKey z id), venc (IsKey p)). pose proof (Ok1 _ _ H) as ((Hz & Hi') & Hc). split; [apply filter_In; split; [apply (rep_in d st _ _ Rp H)|]|].
        -- unfold inp. cbn [fst]. apply class_prefix. reflexivity.
        -- cbn [fst]. unfold holds_id. rewrite unmake_str by assumption. apply bytes_eqb_eq. reflexivity.
  - right. split; [exact A|]. intros H. apply B. repeat split; auto; discriminate.
Qed.
Lemma inuse_failed : forall t io id fuel, dead t io -> (0 < fuel)%nat -> exists t', keyid_inuse fuel t id = Ok (false, t') /\ dead t' io.
Proof. intros t io id fuel (A & B) Hf. unfold keyid_inuse. rewrite foreach_dead by assumption. exists (lmdb_abort t). split; [reflexivity|]. split; [rewrite abort_ret; exact A|exact B]. Qed.
