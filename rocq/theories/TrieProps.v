(** C29, C30: the ordered map (src/contrib/qp-trie/trie.c). *)
From Verif Require Import Base TrieModel TrieSpec TrieProofs TrieProofs2 TrieProofs3 TrieProofs4 TrieProofs5 TrieProofs6 TrieProofs7.
From Coq Require Import Sorted.

(** *** Histories
    A trie as its user sees it: created empty, then changed by any calls of the API, with any pattern of
    failing allocations. Beside the trie goes the finite map that the calls describe. Nothing below says what
    the tree looks like. *)
Inductive hist : trie -> kmap -> Prop :=
| h_create : forall t, trie_create true = Some t -> hist t kempty
| h_insert : forall t m a k t' p, hist t m -> key_ok k -> trie_get_ins a t k = Ok (t', Some p) ->
    hist t' (kset m k (Some (match m k with Some v => v | None => 0 end)))
| h_insert_failed : forall t m a k t', hist t m -> key_ok k -> trie_get_ins a t k = Ok (t', None) -> hist t' m
| h_write_new : forall t m a k t' p v r, hist t m -> key_ok k -> trie_get_ins a t k = Ok (t', Some p) ->
    write_at (t_root t') p v = Ok r -> hist (mkt r (t_weight t')) (kset m k (Some v))
| h_write : forall t m k p v r, hist t m -> bytes k -> trie_get_try t k = Ok (Some p) ->
    write_at (t_root t) p v = Ok r -> hist (mkt r (t_weight t)) (kset m k (Some v))
| h_delete : forall t m k t' v, hist t m -> bytes k -> trie_del t k = Ok (t', v) -> hist t' (kset m k None)
| h_clear : forall t m, hist t m -> hist (trie_clear t) kempty.

Lemma hist_inv : forall t m, hist t m -> twf t /\ forall k v, In (k, v) (content t) <-> m k = Some v.
Proof.
  intros t m H. induction H as [t E|t m a k t' p H [T M] K E|t m a k t' H [T M] K E|t m a k t' p v r H [T M] K E Ew|t m k p v r H [T M] B E Ew|t m k t' v H [T M] B E|t m H [T M]].
  - inversion E; subst. split; [left; split; reflexivity|]. intros k v. cbn. unfold kempty. split; [tauto|discriminate].
  - destruct (kv_get_ins t m a k t' p T M K E) as (T' & v & L & I0 & Ev & Q). split; [auto|]. rewrite <- Ev. exact Q.
  - destruct (get_ins_spec a t k T K) as [(p' & t1 & v & E' & _)|[E' _]]; [congruence|]. rewrite E in E'. inversion E'; subst. auto.
  - destruct (kv_get_ins t m a k t' p T M K E) as (T' & v0 & L & I0 & Ev & Q). destruct (kv_write t' _ k p v0 v r T' Q I0 L Ew) as [T2 Q2]. split; [auto|]. intros x w. rewrite Q2. unfold kset. destruct (key_eq_dec x k); tauto.
  - destruct (get_try_spec t k T B) as [(p' & v0 & E' & L & I0)|[E' _]]; [|congruence]. rewrite E in E'. inversion E'; subst p'. exact (kv_write t m k p v0 v r T M I0 L Ew).
  - destruct (del_spec t k T B) as [(t1 & v1 & l1 & l2 & E' & T' & E1 & E2)|[E' _]]; [|congruence]. rewrite E in E'. inversion E'; subst t1 v1. split; [auto|]. apply (kv_del t t' m k v l1 l2); auto.
  - unfold trie_clear. destruct (t_weight t =? 0) eqn:E0.
    + destruct T as [[H0 Hr]|[W H0]]; [|pose proof (wf_weight_pos _ W); lia]. split; [left; auto|]. intros k v. unfold content. rewrite E0. unfold kempty. cbn. split; [tauto|discriminate].
    + split; [left; split; reflexivity|]. intros k v. cbn. unfold kempty. split; [tauto|discriminate].
Qed.

(** *** C29: the map *)
(** An allocation failed. *)
Definition alloc_failed (a : alloc) : Prop := (exists n, a_stack a n = false) \/ a_key a = false \/ a_twigs a = false.

(** Looking a key up gives the value that the history stored last, and nothing if there is none. *)
Theorem c29_get : forall t m k, hist t m -> bytes k ->
  match m k with
  | Some v => exists p, trie_get_try t k = Ok (Some p) /\ val_at (t_root t) p = Ok v
  | None => trie_get_try t k = Ok None
  end.
Proof.
  intros t m k H B. destruct (hist_inv t m H) as [T M]. destruct (get_try_spec t k T B) as [(p & v & E & L & I0)|[E N]].
  - apply M in I0. rewrite I0. exists p. split; [auto|]. eapply val_at_leaf; eauto.
  - destruct (m k) as [v|] eqn:Em; [|auto]. exfalso. apply (N v). apply M. auto.
Qed.

(** Insertion finds the value, or a new NULL value, at an address that can be written; it fails only when an
    allocation fails, and then the trie is the old one. *)
Theorem c29_insert : forall t m a k, hist t m -> key_ok k ->
  (exists t' p, trie_get_ins a t k = Ok (t', Some p) /\ val_at (t_root t') p = Ok (match m k with Some v => v | None => 0 end) /\
     forall v, exists r, write_at (t_root t') p v = Ok r) \/
  (trie_get_ins a t k = Ok (t, None) /\ alloc_failed a).
Proof.
  intros t m a k H K. destruct (hist_inv t m H) as [T M]. destruct (get_ins_spec a t k T K) as [(p & t' & v & E & T' & L & D)|[E O]]; [left|right; auto].
  exists t', p. split; [auto|].
  assert (I' : In (k, v) (content t')). { destruct D as [[-> D]|[-> (l1 & l2 & _ & ->)]]; [auto|]. apply in_app_iff. right. left. auto. }
  pose proof (h_insert t m a k t' p H K E) as H'. destruct (hist_inv _ _ H') as [_ M']. apply M' in I'. unfold kset in I'. destruct (key_eq_dec k k); [|congruence]. inversion I'; subst. split.
  - eapply val_at_leaf; eauto.
  - intros w. destruct T' as [[W0 R0]|[W0 _]].
    + exfalso. destruct D as [[-> D]|[_ (l1 & l2 & _ & D)]].
      * unfold content in D. rewrite W0 in D. destruct D.
      * unfold content in D. rewrite W0 in D. destruct l1; discriminate.
    + destruct (write_at_spec p (t_root t') k _ w W0 L) as (r & _ & _ & -> & _). eauto.
Qed.

(** Deletion returns the value of the key; ENOENT when the key is not there. It cannot fail otherwise. *)
Theorem c29_delete : forall t m k, hist t m -> bytes k ->
  match m k with
  | Some v => exists t', trie_del t k = Ok (t', v)
  | None => trie_del t k = Err KNOT_ENOENT
  end.
Proof.
  intros t m k H B. destruct (hist_inv t m H) as [T M]. destruct (del_spec t k T B) as [(t' & v & l1 & l2 & E & _ & E1 & _)|[E N]].
  - assert (I0 : In (k, v) (content t)) by (rewrite E1; apply in_app_iff; right; left; auto). apply M in I0. rewrite I0. eauto.
  - destruct (m k) as [v|] eqn:Em; [|auto]. exfalso. apply (N v). apply M. auto.
Qed.

(** The listing of a map: every binding exactly once, in strictly increasing order of the keys. *)
Definition lists (m : kmap) (l : list (list Z * Z)) : Prop :=
  StronglySorted (fun a b => klt (fst a) (fst b)) l /\ forall k v, In (k, v) l <-> m k = Some v.
Lemma hist_lists : forall t m, hist t m -> lists m (content t).
Proof. intros t m H. destruct (hist_inv t m H) as [T M]. split; [|exact M]. apply content_sorted; auto. Qed.
(** there is only one *)
Theorem c29_listing_unique : forall m l l', lists m l -> lists m l' -> l = l'.
Proof.
  intros m l l' [S I0] [S' I']. assert (Q : forall x, In x l <-> In x l') by (intros [k v]; rewrite I0, I'; tauto). clear I0 I'. revert l' S' Q. induction S as [|x l S IH F]; intros l' S' Q.
  - destruct l' as [|y l']; [auto|]. exfalso. apply (Q y). left. auto.
  - destruct S' as [|y l' S' F']; [exfalso; apply (Q x); left; auto|]. rewrite Forall_forall in F, F'.
    assert (x = y). { destruct (proj1 (Q x) (or_introl eq_refl)) as [|Hx]; [auto|]. destruct (proj2 (Q y) (or_introl eq_refl)) as [|Hy]; [auto|]. apply F in Hy. apply F' in Hx. exfalso. eapply klt_irrefl. eapply klt_trans; eauto. }
    subst y. f_equal. apply IH; auto. intros z. split; intros Hz.
    + destruct (proj1 (Q z) (or_intror Hz)) as [<-|]; [|auto]. apply F in Hz. apply klt_irrefl in Hz. tauto.
    + destruct (proj2 (Q z) (or_intror Hz)) as [<-|]; [|auto]. apply F' in Hz. apply klt_irrefl in Hz. tauto.
Qed.

(** The weight is the number of keys. *)
Theorem c29_weight : forall t m, hist t m -> exists l, lists m l /\ trie_weight t = zlen l.
Proof.
  intros t m H. exists (content t). split; [apply hist_lists; auto|]. destruct (hist_inv t m H) as [[[W0 R]|[W W0]] _]; unfold trie_weight.
  - unfold content. rewrite W0. reflexivity.
  - rewrite content_wf; auto.
Qed.

(** *** C29: iteration *)
(** The loop of a user: for (it = trie_it_begin(); !trie_it_finished(it); trie_it_next(it)) visit. *)
Fixpoint walk (a : alloc) (fuel : nat) (it : nstack) : res (list (list Z * Z)) :=
  if trie_it_finished it then Ok [] else
  match fuel with
  | O => OOF
  | S fuel => let* k := trie_it_key it in let* v := trie_it_val it in let* it' := trie_it_next a it in let* l := walk a fuel it' in Ok ((k, v) :: l)
  end.
Fixpoint walk_back (a : alloc) (fuel : nat) (it : nstack) : res (list (list Z * Z)) :=
  if trie_it_finished it then Ok [] else
  match fuel with
  | O => OOF
  | S fuel => let* k := trie_it_key it in let* v := trie_it_val it in let* it' := trie_it_prev a it in let* l := walk_back a fuel it' in Ok ((k, v) :: l)
  end.
Lemma walk_spec : forall a root, wf root -> forall l2 fuel it e l1, stands root it e l1 l2 -> (length l2 < fuel)%nat ->
  exists l3, walk a fuel it = Ok (e :: l3) /\ ((exists l4, l2 = l3 ++ l4) /\ ((forall n, a_stack a n = true) -> l3 = l2)).
Proof.
  intros a root W. induction l2 as [|e' l2 IH]; intros [|fuel] it [k v] l1 S Hf; cbn in Hf; try lia.
  - pose proof (it_next_spec a root it (k, v) l1 [] W S) as E. cbn in E. destruct S as (C & (ci & up & Es) & _). cbn [fst snd] in Es. cbn [walk]. unfold trie_it_finished, trie_it_key, trie_it_val, ns_top. rewrite E, Es. cbn [rbind tkey].
    exists []. split; [destruct fuel; reflexivity|]. split; [exists []; auto|auto].
  - pose proof (it_next_spec a root it (k, v) l1 (e' :: l2) W S) as E. cbn in E. destruct S as (C & (ci & up & Es) & _). cbn [fst snd] in Es. cbn [walk]. unfold trie_it_finished at 1, trie_it_key, trie_it_val, ns_top. rewrite Es. cbn [rbind tkey].
    destruct E as [(it' & -> & S')|[-> [n M]]]; cbn [rbind].
    + destruct (IH fuel it' e' (l1 ++ [(k, v)]) S' ltac:(lia)) as (l3 & -> & (l4 & ->) & D). cbn [rbind]. exists (e' :: l3). split; [reflexivity|]. split; [exists l4; reflexivity|]. intros A. f_equal. auto.
    + exists []. split; [destruct fuel; reflexivity|]. split; [eexists; reflexivity|]. intros A. rewrite A in M. discriminate.
Qed.
Lemma walk_back_spec : forall a root, wf root -> forall r1 fuel it e l2, stands root it e (rev r1) l2 -> (length r1 < fuel)%nat ->
  exists l3, walk_back a fuel it = Ok (e :: l3) /\ ((exists l4, r1 = l3 ++ l4) /\ ((forall n, a_stack a n = true) -> l3 = r1)).
Proof.
  intros a root W. induction r1 as [|e' r1 IH]; intros [|fuel] it [k v] l2 S Hf; cbn in Hf; try lia.
  - pose proof (it_prev_spec a root it (k, v) _ l2 W S) as E. destruct S as (C & (ci & up & Es) & _). cbn [fst snd] in Es. cbn [walk_back]. unfold trie_it_finished at 1, trie_it_key, trie_it_val, ns_top. rewrite Es. cbn [rbind tkey].
    destruct E as [[_ ->]|[(e' & l1' & it' & X & _)|[-> _]]]; [| cbn in X; destruct l1'; discriminate|]; cbn [rbind]; (exists []; split; [destruct fuel; reflexivity|]; split; [exists []; auto|auto]).
  - pose proof (it_prev_spec a root it (k, v) _ l2 W S) as E. destruct S as (C & (ci & up & Es) & _). cbn [fst snd] in Es. cbn [walk_back]. unfold trie_it_finished at 1, trie_it_key, trie_it_val, ns_top. rewrite Es. cbn [rbind tkey].
    destruct E as [[X _]|[(e1 & l1' & it' & X & -> & S')|[-> [n M]]]]; cbn [rbind].
    + exfalso. cbn in X. destruct (rev r1); discriminate.
    + cbn [rev] in X. apply app_inj_tail in X. destruct X as [<- <-].
      destruct (IH fuel it' e' _ S' ltac:(lia)) as (l3 & -> & (l4 & ->) & D). cbn [rbind]. exists (e' :: l3). split; [reflexivity|]. split; [exists l4; reflexivity|]. intros A. f_equal. auto.
    + exists []. split; [destruct fuel; reflexivity|]. split; [eexists; reflexivity|]. intros A. rewrite A in M. discriminate.
Qed.

(** An iteration over all of a trie visits every binding exactly once in increasing order of the keys. If the
    stack of the iterator cannot grow, the iteration ends early, at some binding: nothing is repeated or out of
    order. *)
Theorem c29_iterate : forall t m a fuel, hist t m -> (Z.to_nat (trie_weight t) < fuel)%nat ->
  exists l, lists m l /\
    ((exists it l', trie_it_begin a t = Ok (Some it) /\ walk a fuel it = Ok l' /\ (exists l4, l = l' ++ l4) /\ ((forall n, a_stack a n = true) -> l' = l)) \/
     (trie_it_begin a t = Ok None /\ ((exists n, a_stack a n = false) \/ a_it a = false))).
Proof.
  intros t m a fuel H Hf. pose proof (hist_lists t m H) as LS. destruct (hist_inv t m H) as [T _]. exists (content t). split; [auto|].
  destruct (it_begin_spec a t T) as [[C E]|[(it & e & l2 & E & S & C)|[E D]]]; [| |right; auto].
  - destruct (a_it a) eqn:EA; [left|right; auto]. exists (ns_init t), []. split; [auto|]. rewrite C.
    assert (X : trie_it_finished (ns_init t) = true).
    { destruct T as [[W0 _]|[W W0]]; [unfold ns_init; rewrite W0; reflexivity|]. exfalso. rewrite content_wf in C by auto. eapply wf_nonempty; eauto. }
    split; [destruct fuel; cbn [walk]; rewrite X; reflexivity|]. split; [exists []; auto|auto].
  - left. exists it. destruct T as [[W0 _]|[W W0]]; [unfold content in C; rewrite W0 in C; discriminate|].
    assert (Lw : trie_weight t = zlen (e :: l2)). { unfold trie_weight. rewrite W0, <- C, content_wf by auto. reflexivity. }
    destruct (walk_spec a (t_root t) W l2 fuel it e [] S) as (l3 & E3 & (l4 & ->) & D). { rewrite Lw in Hf. unfold zlen in Hf. cbn in Hf. lia. }
    exists (e :: l3). split; [auto|]. split; [auto|]. rewrite C. split; [exists l4; reflexivity|]. intros A. f_equal. symmetry. rewrite <- (D A). auto.
Qed.

(** *** C30: less or equal *)
(** k is the greatest key that is not greater than q. *)
Definition greatest_leq (m : kmap) (q k : list Z) (v : Z) : Prop :=
  m k = Some v /\ (k = q \/ klt k q) /\ forall k', m k' <> None -> (k' = k \/ klt k' k) \/ klt q k'.

Definition at_key (it : nstack) (k : list Z) (v : Z) : Prop := trie_it_finished it = false /\ trie_it_key it = Ok k /\ trie_it_val it = Ok v.
Lemma stands_at : forall root it k v l1 l2, stands root it (k, v) l1 l2 -> at_key it k v.
Proof. intros root it k v l1 l2 (_ & (ci & up & E) & _). cbn [fst snd] in E. unfold at_key, trie_it_finished, trie_it_key, trie_it_val, ns_top. rewrite E. auto. Qed.

Lemma leq_common : forall t m a q, hist t m -> key_ok q -> t_weight t <> 0 ->
  wf (t_root t) /\ t_weight t = zlen (elems (t_root t)) /\
  ((exists ns v l1 l2, ns_get_leq a (ns_init t) q = Ok (true, ns) /\ m q = Some v /\ stands (t_root t) ns (q, v) l1 l2) \/
   (exists ns k v l1 l2, ns_get_leq a (ns_init t) q = Ok (false, ns) /\ m q = None /\ klt k q /\ greatest_leq m q k v /\ stands (t_root t) ns (k, v) l1 l2 /\
      (forall e, In e l1 -> klt (fst e) k) /\ (forall e, In e l2 -> klt q (fst e))) \/
   (ns_get_leq a (ns_init t) q = Err KNOT_ENOENT /\ forall k, m k <> None -> klt q k) \/
   (ns_get_leq a (ns_init t) q = Err KNOT_ENOMEM /\ exists n, a_stack a n = false)).
Proof.
  intros t m a q H K NW. destruct (hist_inv t m H) as [[[W0 _]|[W W0]] M]; [contradiction|]. split; [auto|]. split; [auto|].
  assert (M' : forall k v, In (k, v) (elems (t_root t)) <-> m k = Some v) by (intros; rewrite <- M, content_wf by auto; tauto).
  pose proof (elems_sorted _ W) as SS.
  destruct (leq_spec a t q W W0 K) as [(ns & v & l1 & l2 & E & S)|[(ns & [k v] & l1 & l2 & E & S & L & G)|[[E G]|[E N]]]].
  - left. exists ns, v, l1, l2. split; [auto|]. split; [|auto]. apply M'. rewrite (stands_elems _ _ _ _ _ S). apply in_app_iff. right. left. auto.
  - right. left. exists ns, k, v, l1, l2. split; [auto|]. pose proof (stands_elems _ _ _ _ _ S) as EL. cbn [fst] in L. rewrite EL in *. apply sorted_app_inv in SS. destruct SS as (S1 & S2 & S3). inversion S2; subst. rewrite Forall_forall in H3.
    assert (P1 : forall e, In e l1 -> klt (fst e) k). { intros e He. apply (S3 e (k, v) He). left. auto. }
    assert (P2 : forall e, In e l2 -> klt q (fst e)). { intros e He. apply G. apply in_map_iff. eauto. }
    assert (NQ : m q = None). { destruct (m q) as [w|] eqn:Em; [|auto]. exfalso. apply M' in Em. apply in_app_iff in Em. destruct Em as [Em|[Em|Em]].
      - apply P1 in Em. cbn in Em. eapply klt_irrefl. eapply klt_trans; eauto.
      - inversion Em; subst. eapply klt_irrefl; eauto.
      - apply P2 in Em. cbn in Em. eapply klt_irrefl; eauto. }
    split; [auto|]. split; [auto|]. split; [|auto]. split; [apply M'; apply in_app_iff; right; left; auto|]. split; [auto|].
    intros k' Nk. destruct (m k') as [w|] eqn:Em; [|congruence]. apply M' in Em. apply in_app_iff in Em. destruct Em as [Em|[Em|Em]].
    + left. right. apply P1 in Em. auto.
    + left. left. congruence.
    + right. apply P2 in Em. auto.
  - right. right. left. split; [auto|]. intros k Nk. destruct (m k) as [w|] eqn:Em; [|congruence]. apply G. eapply in_keys. apply M'. eauto.
  - right. right. right. auto.
Qed.
Lemma hist_empty : forall t m, hist t m -> t_weight t = 0 -> forall k, m k = None.
Proof. intros t m H W0 k. destruct (hist_inv t m H) as [_ M]. destruct (m k) as [v|] eqn:E; [|auto]. exfalso. apply M in E. unfold content in E. rewrite W0 in E. destruct E. Qed.

(** The search returns the exact match if there is one; otherwise the value of the greatest smaller key; and
    ENOENT only if every key is greater. The only other outcome is a failed allocation. *)
Theorem c30_get_leq : forall t m a q, hist t m -> key_ok q ->
  (exists p v, trie_get_leq a t q = Ok (true, p) /\ m q = Some v /\ val_at (t_root t) p = Ok v) \/
  (exists p k v, trie_get_leq a t q = Ok (false, p) /\ m q = None /\ klt k q /\ greatest_leq m q k v /\ val_at (t_root t) p = Ok v) \/
  (trie_get_leq a t q = Err KNOT_ENOENT /\ forall k, m k <> None -> klt q k) \/
  (trie_get_leq a t q = Err KNOT_ENOMEM /\ exists n, a_stack a n = false).
Proof.
  intros t m a q H K. unfold trie_get_leq. destruct (t_weight t =? 0) eqn:E0.
  { right. right. left. split; [auto|]. intros k Nk. exfalso. apply Nk. eapply hist_empty; eauto. lia. }
  assert (V : forall ns e l1 l2, stands (t_root t) ns e l1 l2 -> exists ci up, ns_st ns = (ci, Leaf (fst e) (snd e)) :: up /\ val_at (t_root t) (ns_path (ns_st ns)) = Ok (snd e)).
  { intros ns [k v] l1 l2 (C & (ci & up & E) & _). cbn [fst snd] in *. exists ci, up. split; [auto|]. rewrite E in *. rewrite ns_path_spath. eapply val_at_leaf. apply node_at_leaf. apply chain_path. exact C. }
  destruct (leq_common t m a q H K ltac:(lia)) as (W & W0 & [(ns & v & l1 & l2 & -> & Em & S)|[(ns & k & v & l1 & l2 & -> & Em & L & G & S & _)|[[-> G]|[-> N]]]]); cbn [rbind].
  - left. destruct (V _ _ _ _ S) as (ci & up & Es & Ev). rewrite Es in *. cbn [fst snd] in *. exists (ns_path ((ci, Leaf q v) :: up)), v. auto.
  - right. left. destruct (V _ _ _ _ S) as (ci & up & Es & Ev). rewrite Es in *. cbn [fst snd] in *. exists (ns_path ((ci, Leaf k v) :: up)), k, v. auto.
  - right. right. left. auto.
  - right. right. right. auto.
Qed.

(** The same search for an iterator. *)
Theorem c30_it_get_leq : forall t m a q, hist t m -> key_ok q ->
  (exists it v, trie_it_get_leq a t q = Ok (true, it) /\ m q = Some v /\ at_key it q v) \/
  (exists it k v, trie_it_get_leq a t q = Ok (false, it) /\ m q = None /\ klt k q /\ greatest_leq m q k v /\ at_key it k v) \/
  (trie_it_get_leq a t q = Err KNOT_ENOENT /\ forall k, m k <> None -> klt q k) \/
  (trie_it_get_leq a t q = Err KNOT_ENOMEM /\ exists n, a_stack a n = false).
Proof.
  intros t m a q H K. unfold trie_it_get_leq. destruct (t_weight t =? 0) eqn:E0.
  { right. right. left. split; [auto|]. intros k Nk. exfalso. apply Nk. eapply hist_empty; eauto. lia. }
  destruct (leq_common t m a q H K ltac:(lia)) as (W & W0 & [(ns & v & l1 & l2 & -> & Em & S)|[(ns & k & v & l1 & l2 & -> & Em & L & G & S & _)|[[-> G]|[-> N]]]]).
  - left. exists ns, v. pose proof (stands_at _ _ _ _ _ _ S). auto.
  - right. left. exists ns, k, v. pose proof (stands_at _ _ _ _ _ _ S). auto.
  - right. right. left. auto.
  - right. right. right. auto.
Qed.

(** There is at most one answer. *)
Theorem c30_unique : forall m q k v k' v', greatest_leq m q k v -> greatest_leq m q k' v' -> k = k' /\ v = v'.
Proof.
  intros m q k v k' v' (E & L & G) (E' & L' & G').
  assert (k = k').
  { destruct (G k') as [[?|A]|A]; [congruence|auto| |].
    - destruct (G' k) as [[?|B]|B]; [congruence|auto| |].
      + exfalso. eapply klt_irrefl. eapply klt_trans; eauto.
      + exfalso. destruct L as [->|L]; [eapply klt_irrefl; eauto|]. eapply klt_irrefl. eapply klt_trans; eauto.
    - exfalso. destruct L' as [->|L']; [eapply klt_irrefl; eauto|]. eapply klt_irrefl. eapply klt_trans; eauto. }
  subst k'. split; [auto|congruence].
Qed.

(** *** C29: navigation
    Iterators as the user gets them: from the beginning or from a search, then moved in any way. *)
Inductive iterator (t : trie) : nstack -> Prop :=
| i_begin : forall a it, trie_it_begin a t = Ok (Some it) -> iterator t it
| i_leq : forall a q e it, key_ok q -> trie_it_get_leq a t q = Ok (e, it) -> iterator t it
| i_next : forall a it it', iterator t it -> trie_it_finished it = false -> trie_it_next a it = Ok it' -> iterator t it'
| i_prev : forall a it it', iterator t it -> trie_it_finished it = false -> trie_it_prev a it = Ok it' -> iterator t it'
| i_next_loop : forall a it it', iterator t it -> trie_it_finished it = false -> trie_it_next_loop a it = Ok it' -> iterator t it'
| i_prev_loop : forall a it it', iterator t it -> trie_it_finished it = false -> trie_it_prev_loop a it = Ok it' -> iterator t it'
| i_parent : forall it it', iterator t it -> trie_it_finished it = false -> trie_it_parent it = Ok it' -> iterator t it'.

Lemma parent_spec : forall root it k v l1 l2, wf root -> stands root it (k, v) l1 l2 ->
  (exists it' q w m1 m2, trie_it_parent it = Ok it' /\ stands root it' (q, w) m1 m2 /\ pprefix q k /\ forall q', In q' (keys root) -> pprefix q' k -> zlen q' <= zlen q) \/
  (trie_it_parent it = Ok (it_end it) /\ forall q, In q (keys root) -> ~ pprefix q k).
Proof.
  intros root [st n] k v l1 l2 W (C & (ci & up & E) & _). cbn [ns_st fst snd] in *. subst st. unfold trie_it_parent, ns_prefix. cbn [ns_st ns_alen].
  destruct (prefix_up_spec root W _ C ci (Leaf k v) up k n true eq_refl) as [(ns & q & w & m1 & m2 & -> & S & P & L)|[-> N]].
  - left. auto.
  - auto.
  - intros q [Hq|[]] (y & l & Ek). cbn in Hq. subst q. apply (f_equal (@length Z)) in Ek. rewrite app_length in Ek. cbn in Ek. lia.
  - left. exists ns, q, w, m1, m2. auto.
  - right. auto.
Qed.
Lemma it_end_fin : forall it, trie_it_finished (it_end it) = true.
Proof. reflexivity. Qed.
Lemma stands_unfin : forall root it e l1 l2, stands root it e l1 l2 -> trie_it_finished it = false.
Proof. intros root it e l1 l2 (_ & (ci & up & E) & _). unfold trie_it_finished. rewrite E. reflexivity. Qed.

Lemma iterator_stands : forall t it, twf t -> iterator t it -> trie_it_finished it = false ->
  wf (t_root t) /\ t_weight t = zlen (elems (t_root t)) /\ exists e l1 l2, stands (t_root t) it e l1 l2.
Proof.
  intros t it T I0 F. assert (NE : wf (t_root t) /\ t_weight t = zlen (elems (t_root t))).
  { destruct T as [[W0 R0]|T]; [exfalso|exact T]. 
    assert (Q : trie_it_finished it = true); [|congruence]. clear F. induction I0 as [a it E|a q e it K E|a it it' _ IH F E|a it it' _ IH F E|a it it' _ IH F E|a it it' _ IH F E|it it' _ IH F E]; try (rewrite IH in F; discriminate).
    - unfold trie_it_begin, ns_init in E. rewrite W0 in E. cbn in E. destruct (a_it a); inversion E. reflexivity.
    - unfold trie_it_get_leq in E. rewrite W0 in E. discriminate. }
  destruct NE as [W W0]. split; [auto|]. split; [auto|]. clear T. induction I0 as [a it E|a q e it K E|a it it' _ IH F' E|a it it' _ IH F' E|a it it' _ IH F' E|a it it' _ IH F' E|it it' _ IH F' E].
  - destruct (it_begin_spec a t (or_intror (conj W W0))) as [[C _]|[(it' & e & l2 & E' & S & _)|[E' _]]].
    + exfalso. rewrite content_wf in C by auto. eapply wf_nonempty; eauto.
    + rewrite E in E'. inversion E'; subst. eauto.
    + congruence.
  - unfold trie_it_get_leq in E. destruct (t_weight t =? 0); [discriminate|].
    destruct (leq_spec a t q W W0 K) as [(ns & v & l1 & l2 & E' & S)|[(ns & e' & l1 & l2 & E' & S & _)|[[E' _]|[E' _]]]]; rewrite E in E'; inversion E'; subst; eauto.
  - destruct (IH F') as (e & l1 & l2 & S). pose proof (it_next_spec a _ it e l1 l2 W S) as X. destruct l2 as [|e' l2].
    + rewrite E in X. inversion X; subst. discriminate.
    + destruct X as [(it2 & X & S')|[X _]]; rewrite E in X; inversion X; subst; [eauto|discriminate].
  - destruct (IH F') as (e & l1 & l2 & S). destruct (it_prev_spec a _ it e l1 l2 W S) as [[_ X]|[(e' & l1' & it2 & _ & X & S')|[X _]]]; rewrite E in X; inversion X; subst; [discriminate|eauto|discriminate].
  - destruct (IH F') as (e & l1 & l2 & S). destruct (it_next_loop_spec a _ it e l1 l2 W S) as [(it2 & e' & l1' & l2' & X & S' & _)|[X _]]; rewrite E in X; inversion X; subst; [eauto|discriminate].
  - destruct (IH F') as (e & l1 & l2 & S). destruct (it_prev_loop_spec a _ it e l1 l2 W S) as [(it2 & e' & l1' & l2' & X & S' & _)|[X _]]; rewrite E in X; inversion X; subst; [eauto|discriminate].
  - destruct (IH F') as ([k v] & l1 & l2 & S). destruct (parent_spec _ it k v l1 l2 W S) as [(it2 & q & w & m1 & m2 & X & S' & _)|[X _]]; rewrite E in X; inversion X; subst; [eauto|discriminate].
Qed.

Definition successor (m : kmap) (k k' : list Z) : Prop := m k' <> None /\ klt k k' /\ forall x, m x <> None -> klt k x -> x = k' \/ klt k' x.
Definition predecessor (m : kmap) (k k' : list Z) : Prop := m k' <> None /\ klt k' k /\ forall x, m x <> None -> klt x k -> x = k' \/ klt x k'.
Definition least (m : kmap) (k : list Z) : Prop := m k <> None /\ forall x, m x <> None -> x = k \/ klt k x.
Definition greatest (m : kmap) (k : list Z) : Prop := m k <> None /\ forall x, m x <> None -> x = k \/ klt x k.
Definition longest_prefix (m : kmap) (k q : list Z) : Prop := m q <> None /\ pprefix q k /\ forall q', m q' <> None -> pprefix q' k -> zlen q' <= zlen q.

(** Where the iterator stands after a move, given the key it has to find, if any: at that key with its value, or
    finished when there is no such key. Otherwise the stack could not grow, and the iterator is finished. *)
Definition moved (m : kmap) (P : list Z -> Prop) (a : option alloc) (r : res nstack) : Prop :=
  (exists it k v, r = Ok it /\ P k /\ m k = Some v /\ at_key it k v) \/
  (exists it, r = Ok it /\ trie_it_finished it = true /\ forall k, ~ P k) \/
  (exists it a' n, r = Ok it /\ trie_it_finished it = true /\ a = Some a' /\ a_stack a' n = false).

Theorem c29_navigate : forall t m it a, hist t m -> iterator t it -> trie_it_finished it = false ->
  exists k v, at_key it k v /\ m k = Some v /\
    moved m (successor m k) (Some a) (trie_it_next a it) /\
    moved m (predecessor m k) (Some a) (trie_it_prev a it) /\
    moved m (fun x => successor m k x \/ greatest m k /\ least m x) (Some a) (trie_it_next_loop a it) /\
    moved m (fun x => predecessor m k x \/ least m k /\ greatest m x) (Some a) (trie_it_prev_loop a it) /\
    moved m (longest_prefix m k) None (trie_it_parent it).
Proof.
  intros t m it a H I0 F. destruct (hist_inv t m H) as [T M]. destruct (iterator_stands t it T I0 F) as (W & W0 & [k v] & l1 & l2 & S).
  pose proof (stands_elems _ _ _ _ _ S) as EL. assert (M' : forall x w, In (x, w) (elems (t_root t)) <-> m x = Some w) by (intros; rewrite <- M, content_wf by auto; tauto).
  pose proof (elems_sorted _ W) as SS.
  assert (MN : forall x, m x <> None <-> exists w, In (x, w) (elems (t_root t))).
  { intros x. split; [intros N; destruct (m x) as [w|] eqn:E; [exists w; apply M'; auto|congruence]|]. intros [w Hw]. apply M' in Hw. congruence. }
  (* the order, from a split of the elements *)
  assert (ORD : forall x w y1 y2, elems (t_root t) = y1 ++ (x, w) :: y2 -> (forall e, In e y1 -> klt (fst e) x) /\ (forall e, In e y2 -> klt x (fst e))).
  { intros x w y1 y2 E. rewrite E in SS. apply sorted_app_inv in SS. destruct SS as (_ & S2 & S3). inversion S2; subst. rewrite Forall_forall in H3. split; [intros e He; apply (S3 e (x, w) He); left; auto|intros e He; apply (H3 e He)]. }
  assert (SUCC : forall x w y1 x' w' y2, elems (t_root t) = y1 ++ (x, w) :: (x', w') :: y2 -> successor m x x' /\ predecessor m x' x).
  { intros x w y1 x' w' y2 E. destruct (ORD _ _ _ _ E) as [A1 A2]. assert (E' : elems (t_root t) = (y1 ++ [(x, w)]) ++ (x', w') :: y2) by (rewrite E, <- app_assoc; reflexivity). destruct (ORD _ _ _ _ E') as [B1 B2].
    assert (I1 : In (x, w) (elems (t_root t))) by (rewrite E; apply in_app_iff; right; left; auto). assert (I2 : In (x', w') (elems (t_root t))) by (rewrite E; apply in_app_iff; right; right; left; auto).
    assert (L : klt x x') by (apply (A2 (x', w')); left; auto).
    split; (split; [apply MN; eauto|]; split; [exact L|]); intros z Nz Lz; apply MN in Nz; destruct Nz as [u Hu]; rewrite E in Hu; apply in_app_iff in Hu; destruct Hu as [Hu|[Hu|[Hu|Hu]]].
    - apply A1 in Hu. cbn in Hu. exfalso. eapply klt_irrefl. eapply klt_trans; eauto.
    - inversion Hu; subst. exfalso. eapply klt_irrefl; eauto.
    - inversion Hu; auto.
    - apply B2 in Hu. auto.
    - apply A1 in Hu. auto.
    - inversion Hu; auto.
    - inversion Hu; subst. exfalso. eapply klt_irrefl; eauto.
    - apply B2 in Hu. cbn in Hu. exfalso. eapply klt_irrefl. eapply klt_trans; eauto. }
  assert (MIN : forall x w y2, elems (t_root t) = (x, w) :: y2 -> least m x).
  { intros x w y2 E. destruct (ORD x w [] y2 E) as [_ A2]. split; [apply MN; exists w; rewrite E; left; auto|]. intros z Nz. apply MN in Nz. destruct Nz as [u Hu]. rewrite E in Hu. destruct Hu as [Hu|Hu]; [inversion Hu; auto|]. apply A2 in Hu. auto. }
  assert (MAX : forall x w y1, elems (t_root t) = y1 ++ [(x, w)] -> greatest m x).
  { intros x w y1 E. destruct (ORD x w y1 [] E) as [A1 _]. split; [apply MN; exists w; rewrite E; apply in_app_iff; right; left; auto|]. intros z Nz. apply MN in Nz. destruct Nz as [u Hu]. rewrite E in Hu. apply in_app_iff in Hu. destruct Hu as [Hu|[Hu|[]]]; [|inversion Hu; auto]. apply A1 in Hu. auto. }
  assert (INE : forall x w y1 y2 ns, stands (t_root t) ns (x, w) y1 y2 -> m x = Some w).
  { intros x w y1 y2 ns Sx. apply M'. rewrite (stands_elems _ _ _ _ _ Sx). apply in_app_iff. right. left. auto. }
  exists k, v. split; [eapply stands_at; eauto|]. split; [eapply INE; eauto|].
  split; [|split; [|split; [|split]]].
  - pose proof (it_next_spec a _ it _ l1 l2 W S) as X. destruct l2 as [|[k' v'] l2].
    + right. left. exists (it_end it). split; [auto|]. split; [reflexivity|]. intros x (N & L & _). destruct (MAX _ _ _ EL) as [_ G]. destruct (G x N) as [->|G']; [eapply klt_irrefl; eauto|]. eapply klt_irrefl. eapply klt_trans; eauto.
    + destruct X as [(it' & X & S')|[X [n N]]]; [left; exists it', k', v'|right; right; exists (it_end it), a, n; auto]. split; [auto|]. split; [eapply SUCC; eauto|]. split; [eapply INE; eauto|eapply stands_at; eauto].
  - destruct (it_prev_spec a _ it _ l1 l2 W S) as [[-> X]|[([k' v'] & l1' & it' & -> & X & S')|[X [n N]]]].
    + right. left. exists (it_end it). split; [auto|]. split; [reflexivity|]. intros x (N & L & _). destruct (MIN _ _ _ EL) as [_ G]. destruct (G x N) as [->|G']; [eapply klt_irrefl; eauto|]. eapply klt_irrefl. eapply klt_trans; eauto.
    + left. exists it', k', v'. split; [auto|]. split; [|split; [eapply INE; eauto|eapply stands_at; eauto]]. rewrite <- app_assoc in EL. cbn [app] in EL. eapply SUCC; eauto.
    + right. right. exists (it_end it), a, n. auto.
  - destruct (it_next_loop_spec a _ it _ l1 l2 W S) as [(it' & [k' v'] & l1' & l2' & X & S' & D)|[X [n N]]]; [left; exists it', k', v'|right; right; exists (it_end it), a, n; auto].
    split; [auto|]. split; [|split; [eapply INE; eauto|eapply stands_at; eauto]]. destruct l2 as [|e l2].
    + right. subst l1'. split; [eapply MAX; eauto|]. eapply MIN. apply (stands_elems _ _ _ _ _ S').
    + left. subst e. eapply SUCC; eauto.
  - destruct (it_prev_loop_spec a _ it _ l1 l2 W S) as [(it' & [k' v'] & l1' & l2' & X & S' & D)|[X [n N]]]; [left; exists it', k', v'|right; right; exists (it_end it), a, n; auto].
    split; [auto|]. split; [|split; [eapply INE; eauto|eapply stands_at; eauto]]. destruct l1 as [|e l1].
    + right. subst l2'. split; [eapply MIN; eauto|]. eapply MAX. apply (stands_elems _ _ _ _ _ S').
    + left. rewrite D, <- app_assoc in EL. cbn [app] in EL. eapply SUCC; eauto.
  - assert (MK : forall q, m q <> None -> In q (keys (t_root t))). { intros q Nq. apply MN in Nq. destruct Nq as [w Hw]. eapply in_keys; eauto. }
    destruct (parent_spec _ it k v l1 l2 W S) as [(it' & q & w & m1 & m2 & X & S' & P & L)|[X N]].
    + left. exists it', q, w. split; [auto|]. pose proof (INE _ _ _ _ _ S') as Eq. split; [|split; [auto|eapply stands_at; eauto]]. split; [congruence|]. split; [auto|]. intros q' Nq' P'. apply L; auto.
    + right. left. exists (it_end it). split; [auto|]. split; [reflexivity|]. intros q (Nq & P & _). eapply N; eauto.
Qed.

(** Walking on from where an iterator stands visits the bindings from there on, in both directions. *)
Theorem c29_walk_from : forall t m it a fuel, hist t m -> iterator t it -> trie_it_finished it = false -> (Z.to_nat (trie_weight t) < fuel)%nat ->
  (forall n, a_stack a n = true) ->
  exists l1 k v l2, lists m (l1 ++ (k, v) :: l2) /\ at_key it k v /\
    walk a fuel it = Ok ((k, v) :: l2) /\ walk_back a fuel it = Ok ((k, v) :: rev l1).
Proof.
  intros t m it a fuel H I0 F Hf A. pose proof (hist_lists t m H) as LS. destruct (hist_inv t m H) as [T M]. destruct (iterator_stands t it T I0 F) as (W & W0 & [k v] & l1 & l2 & S).
  pose proof (stands_elems _ _ _ _ _ S) as EL. exists l1, k, v, l2. rewrite content_wf, EL in LS by auto. split; [exact LS|]. split; [eapply stands_at; eauto|].
  unfold trie_weight in Hf. rewrite W0, EL, zlen_app, zlen_cons in Hf. unfold zlen in Hf.
  destruct (walk_spec a _ W l2 fuel it (k, v) l1 S) as (l3 & -> & _ & D); [lia|]. rewrite (D A). split; [reflexivity|].
  rewrite <- (rev_involutive l1) in S. destruct (walk_back_spec a _ W (rev l1) fuel it (k, v) l2 S) as (l4 & -> & _ & D'); [rewrite rev_length; lia|]. rewrite (D' A). reflexivity.
Qed.

(** Deleting at an iterator removes exactly the key it stands at. *)
Theorem c29_it_delete : forall t m it, hist t m -> iterator t it -> trie_it_finished it = false ->
  exists t' it' k, trie_it_key it = Ok k /\ trie_it_del t it = Ok (t', it') /\ trie_it_finished it' = true /\
    trie_weight t' = trie_weight t - 1 /\
    forall x, bytes x -> match kset m k None x with
      | Some v => exists p, trie_get_try t' x = Ok (Some p) /\ val_at (t_root t') p = Ok v
      | None => trie_get_try t' x = Ok None
      end.
Proof.
  intros t m it H I0 F. destruct (hist_inv t m H) as [T M]. destruct (iterator_stands t it T I0 F) as (W & W0 & [k v] & l1 & l2 & S).
  pose proof (stands_elems _ _ _ _ _ S) as EL. destruct (it_del_spec t it _ l1 l2 W W0 S) as (t' & E & T' & C'). exists t', (it_end it), k. split; [apply (stands_at _ _ _ _ _ _ S)|]. split; [auto|]. split; [reflexivity|]. split.
  { unfold trie_weight. rewrite W0, EL, zlen_app, zlen_cons. destruct T' as [[X R]|[W' X]].
    - unfold content in C'. rewrite X in *. cbn in C'. destruct l1; [|discriminate]. destruct l2; [|discriminate]. reflexivity.
    - rewrite content_wf in C' by auto. rewrite X, C', zlen_app. lia. }
  assert (M' : forall x w, In (x, w) (elems (t_root t)) <-> m x = Some w) by (intros; rewrite <- M, content_wf by auto; tauto).
  pose proof (elems_sorted _ W) as SS. rewrite EL in SS. pose proof SS as SS'. apply sorted_app_inv in SS. destruct SS as (_ & S2 & S3). inversion S2; subst. rewrite Forall_forall in H3.
  assert (MC : forall x w, In (x, w) (content t') <-> kset m k None x = Some w).
  { intros x w. rewrite C'. unfold kset. destruct (key_eq_dec x k) as [->|N].
    - split; [|discriminate]. intros Hx. exfalso. apply in_app_iff in Hx. destruct Hx as [Hx|Hx]; [specialize (S3 _ (k, v) Hx (or_introl eq_refl)); unfold kvlt in S3; cbn in S3; apply klt_irrefl in S3; auto|].
      specialize (H3 _ Hx). unfold kvlt in H3. cbn in H3. apply klt_irrefl in H3. auto.
    - rewrite <- M', EL. rewrite !in_app_iff. cbn. split; [intros [?|?]; auto|intros [?|[X|?]]; auto; inversion X; congruence]. }
  intros x B. destruct (get_try_spec t' x T' B) as [(p & w & E' & L & I1)|[E' N]].
  - apply MC in I1. rewrite I1. exists p. split; [auto|]. eapply val_at_leaf; eauto.
  - destruct (kset m k None x) as [w|] eqn:Em; [|auto]. exfalso. apply (N w). apply MC. auto.
Qed.

(** trie_apply calls the function on the values in the order of the keys, once for each, and stops at the first
    code that is not EOK. *)
Theorem c29_apply : forall {S} (f : Z -> S -> Z * S * Z) t m s t' s' r, hist t m -> trie_apply f t s = (t', s', r) ->
  exists l l', lists m l /\ apply_list f l s = (l', s', r) /\ map fst l' = map fst l /\ lists (fun k => match find (fun e => if key_eq_dec (fst e) k then true else false) l' with Some e => Some (snd e) | None => None end) l' /\
  (forall k, bytes k -> match find (fun e => if key_eq_dec (fst e) k then true else false) l' with
     | Some e => exists p, trie_get_try t' k = Ok (Some p) /\ val_at (t_root t') p = Ok (snd e)
     | None => trie_get_try t' k = Ok None
     end).
Proof.
  intros S f t m s t' s' r H E. destruct (hist_inv t m H) as [T M]. pose proof (hist_lists t m H) as LS. exists (content t).
  assert (X : twf t' /\ apply_list f (content t) s = (content t', s', r) /\ map fst (content t') = map fst (content t)).
  { unfold trie_apply in E. destruct T as [[W0 R0]|[W W0]].
    - rewrite W0 in E. cbn in E. inversion E; subst. unfold content. rewrite W0. cbn. split; [left; auto|auto].
    - pose proof (wf_weight_pos _ W). replace (t_weight t =? 0) with false in E by lia. destruct (apply_nodes f (t_root t) s) as [[root' s1] r1] eqn:EA. inversion E; subst. destruct (apply_nodes_spec f _ _ W _ _ _ EA) as (W' & K' & A').
      assert (TW : t_weight (mkt root' (t_weight t)) = zlen (elems (t_root (mkt root' (t_weight t))))). { cbn [t_weight t_root]. rewrite W0. unfold keys in K'. unfold zlen. rewrite <- (map_length fst (elems root')), K', map_length. reflexivity. }
      split; [right; split; [exact W'|exact TW]|]. rewrite (content_wf (mkt root' (t_weight t)) W' TW), content_wf by auto. split; [exact A'|exact K']. }
  destruct X as (T' & A & K). exists (content t'). split; [auto|]. split; [auto|]. split; [auto|].
  assert (FD : forall k v, In (k, v) (content t') <-> match find (fun e => if key_eq_dec (fst e) k then true else false) (content t') with Some e => Some (snd e) | None => None end = Some v).
  { intros k v. destruct (find _ (content t')) as [[k1 v1]|] eqn:Ef.
    - apply find_some in Ef. destruct Ef as [I1 E1]. cbn [fst snd] in *. destruct (key_eq_dec k1 k) as [->|]; [|discriminate]. split; [intros I2; f_equal; eapply sorted_fun; [apply content_sorted; exact T'|exact I1|exact I2]|intros X; inversion X; subst; auto].
    - split; [|discriminate]. intros I2. pose proof (find_none _ _ Ef _ I2) as X. cbn [fst] in X. destruct (key_eq_dec k k); [discriminate|congruence]. }
  split; [split; [apply content_sorted; auto|exact FD]|].
  intros k B. destruct (get_try_spec t' k T' B) as [(p & v & E' & L & I1)|[E' N]].
  - apply FD in I1. revert I1. destruct (find _ (content t')) as [e|]; intros I1; [|discriminate]. inversion I1; subst. exists p. split; [auto|]. eapply val_at_leaf; eauto.
  - destruct (find _ (content t')) as [e|] eqn:Ef; [|auto]. exfalso. apply (N (snd e)). apply FD. rewrite Ef. auto.
Qed.

(** *** Two things that do not hold *)
Definition good : alloc := mka (fun _ => true) true true true.

(** A key of 2^31 bytes passes the check of the length, but its length is stored in 31 bits: it goes in as the
    empty key. *)
Theorem c29_longest_key_refuted : exists k, bytes k /\ zlen k = 2 ^ 31 /\
  exists t p, trie_get_ins good (mkt empty_root 0) k = Ok (t, Some p) /\ trie_get_try t k = Ok None /\ trie_get_try t [] = Ok (Some []).
Proof.
  exists (repeat 1 (Z.to_nat (2 ^ 31))). assert (L : zlen (repeat 1 (Z.to_nat (2 ^ 31))) = 2 ^ 31) by (unfold zlen; rewrite repeat_length; lia).
  split; [apply Forall_forall; intros x Hx; apply repeat_spec in Hx; subst; unfold byte; lia|]. split; [exact L|].
  revert L. generalize (repeat 1 (Z.to_nat (2 ^ 31))). intros k L. unfold trie_get_ins. cbn [t_weight Z.eqb]. unfold mkleaf. rewrite L. change (2 ^ 31 >? Z.shiftl 1 KEYLENBITS) with false. cbn [negb a_key good]. change (2 ^ 31 mod 2 ^ KEYLENBITS) with 0. change (zfirstn 0 k) with (@nil Z).
  exists (mkt (Leaf [] 0) (0 + 1)), []. split; [reflexivity|]. split; [|reflexivity]. unfold trie_get_try. cbn [t_weight t_root height get_loop isbranch negb]. change (0 + 1 =? 0) with false. cbv iota. cbn [rbind tkey].
  assert (E : key_cmp k [] = 1). { unfold key_cmp. cbn [length]. rewrite Nat.min_0_r. replace (memcmp k [] 0) with 0 by (destruct k; reflexivity). rewrite L. reflexivity. }
  rewrite E. reflexivity.
Qed.

(** trie_it_next_nosuffix asks a leaf for the bitmap of a branch, which is an assertion failure: already with two
    keys. *)
Definition two : trie := match (let* (t, _) := trie_get_ins good (mkt empty_root 0) [1] in let* (t, _) := trie_get_ins good t [2] in Ok t) with Ok t => t | _ => mkt empty_root 0 end.
Theorem c29_nosuffix_refuted : exists t m it, hist t m /\ iterator t it /\ trie_it_finished it = false /\ trie_it_next_nosuffix good it = UB.
Proof.
  assert (K1 : key_ok [1]) by (split; [repeat constructor; unfold byte; lia|reflexivity]). assert (K2 : key_ok [2]) by (split; [repeat constructor; unfold byte; lia|reflexivity]).
  destruct (trie_it_begin good two) as [[it|]| | |] eqn:E; try (vm_compute in E; discriminate).
  exists two. eexists. exists it. split; [|split; [|split]].
  - eapply (h_insert _ _ good [2]); [eapply (h_insert _ _ good [1]); [apply h_create; reflexivity|exact K1|vm_compute; reflexivity]|exact K2|vm_compute; reflexivity].
  - eapply i_begin; eauto.
  - vm_compute in E. inversion E. reflexivity.
  - vm_compute in E. inversion E. vm_compute. reflexivity.
Qed.

(** *** Examples: a trie of nested names with deletions *)
Definition ex_ops (l : list (list Z * Z)) (t : trie) : res trie :=
  fold_left (fun rt e => let* t := rt in let* (t, p) := trie_get_ins good t (fst e) in match p with Some p => let* r := write_at (t_root t) p (snd e) in Ok (mkt r (t_weight t)) | None => UB end) l (Ok t).
Definition ex_keys : list (list Z * Z) := [([97; 0], 1); ([], 2); ([97; 0; 98], 3); ([255; 255], 4); ([97; 0; 98; 0; 99], 5); ([97], 6); ([97; 0; 98], 7); ([0], 8)].
Definition ex_full : trie := match ex_ops ex_keys (mkt empty_root 0) with Ok t => t | _ => mkt empty_root 0 end.
Definition ex_trie : trie := match trie_del ex_full [97] with Ok (t, _) => t | _ => mkt empty_root 0 end.
Fixpoint ex_map (l : list (list Z * Z)) (m : kmap) : kmap := match l with [] => m | e :: l => ex_map l (kset m (fst e) (Some (snd e))) end.
Example ex_hist : exists m, hist ex_trie m /\ m [97; 0; 98] = Some 7 /\ m [97] = None /\ m [0] = Some 8 /\ m [] = Some 2.
Proof.
  assert (ST : forall l t m t', Forall (fun e => key_ok (fst e)) l -> hist t m -> ex_ops l t = Ok t' -> hist t' (ex_map l m)).
  { induction l as [|[k v] l IH]; intros t m t' K H E; [inversion E; subst; exact H|]. inversion K; subst. unfold ex_ops in E. cbn [fold_left fst snd rbind] in E.
    assert (BAD : forall (X : res trie) (P : Prop), (forall y, X <> Ok y) -> fold_left (fun rt e => let* t := rt in let* (t, p) := trie_get_ins good t (fst e) in match p with Some p => let* r := write_at (t_root t) p (snd e) in Ok (mkt r (t_weight t)) | None => UB end) l X = Ok t' -> P).
    { clear. induction l as [|e l IH]; intros X P N E; [exfalso; apply (N _ E)|]. cbn [fold_left] in E. eapply IH; [|exact E]. intros y. destruct X; cbn; try discriminate. exfalso. eapply N; eauto. }
    destruct (trie_get_ins good t k) as [[t1 [p|]]| | |] eqn:E1; cbn [rbind] in E; try (eapply BAD; [|exact E]; discriminate).
    destruct (write_at (t_root t1) p v) as [r| | |] eqn:E2; cbn [rbind] in E; try (eapply BAD; [|exact E]; discriminate).
    cbn [ex_map fst snd]. eapply IH; [eauto| |exact E]. eapply h_write_new; eauto. }
  exists (kset (ex_map ex_keys kempty) [97] None). split; [|vm_compute; auto].
  assert (E1 : ex_ops ex_keys (mkt empty_root 0) = Ok ex_full) by (vm_compute; reflexivity). assert (E2 : trie_del ex_full [97] = Ok (ex_trie, 6)) by (vm_compute; reflexivity).
  eapply h_delete; [eapply ST; [|apply h_create; reflexivity|exact E1]|repeat constructor; unfold byte; lia|exact E2].
  unfold ex_keys. repeat (apply Forall_cons; [cbn [fst]; split; [unfold bytes; repeat (apply Forall_cons; [unfold byte; lia|]); apply Forall_nil|unfold zlen; cbn [length]; lia]|]). apply Forall_nil.
Qed.
Example ex_iterate : (let* o := trie_it_begin good ex_trie in match o with Some it => walk good 10 it | None => UB end) =
  Ok [([], 2); ([0], 8); ([97; 0], 1); ([97; 0; 98], 7); ([97; 0; 98; 0; 99], 5); ([255; 255], 4)].
Proof. vm_compute. reflexivity. Qed.
Definition ex_leq (q : list Z) : res (bool * list Z) := let* (e, it) := trie_it_get_leq good ex_trie q in let* k := trie_it_key it in Ok (e, k).
Example ex_leq_exact : ex_leq [97; 0; 98] = Ok (true, [97; 0; 98]). Proof. vm_compute. reflexivity. Qed.
Example ex_leq_between : ex_leq [97; 0; 98; 0; 98; 255] = Ok (false, [97; 0; 98]). Proof. vm_compute. reflexivity. Qed.
Example ex_leq_below_sibling : ex_leq [98] = Ok (false, [97; 0; 98; 0; 99]). Proof. vm_compute. reflexivity. Qed.
Example ex_leq_none : trie_get_leq good two [0; 5] = Err KNOT_ENOENT. Proof. vm_compute. reflexivity. Qed.
Example ex_parent : (let* (_, it) := trie_it_get_leq good ex_trie [97; 0; 98; 0; 99] in let* it := trie_it_parent it in trie_it_key it) = Ok [97; 0; 98]. Proof. vm_compute. reflexivity. Qed.
Example ex_insert_oom : trie_get_ins (mka (fun _ => true) false true true) two [3] = Ok (two, None). Proof. vm_compute. reflexivity. Qed.
Example ex_longest : exists k, bytes k /\ zlen k = 2 ^ 31 - 1 /\ key_ok k.
Proof.
  exists (repeat 1 (Z.to_nat (2 ^ 31 - 1))). assert (L : zlen (repeat 1 (Z.to_nat (2 ^ 31 - 1))) = 2 ^ 31 - 1) by (unfold zlen; rewrite repeat_length; lia).
  assert (B : bytes (repeat 1 (Z.to_nat (2 ^ 31 - 1)))) by (apply Forall_forall; intros x Hx; apply repeat_spec in Hx; subst; unfold byte; lia). split; [auto|]. split; [auto|]. split; [auto|]. rewrite L. lia.
Qed.

Print Assumptions c29_get.
Print Assumptions c29_insert.
Print Assumptions c29_delete.
Print Assumptions c29_listing_unique.
Print Assumptions c29_weight.
Print Assumptions c29_iterate.
Print Assumptions c29_navigate.
Print Assumptions c29_walk_from.
Print Assumptions c29_it_delete.
Print Assumptions c29_apply.
Print Assumptions c29_longest_key_refuted.
Print Assumptions c29_nosuffix_refuted.
Print Assumptions c30_get_leq.
Print Assumptions c30_it_get_leq.
Print Assumptions c30_unique.
