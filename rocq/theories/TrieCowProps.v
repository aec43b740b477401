(** C31: transactions on a trie (src/contrib/qp-trie/trie.c). *)
From Verif Require Import Base TrieModel TrieSpec TrieProofs TrieProofs2 TrieProofs3 TrieProofs4 TrieProofs5 TrieProofs6 TrieProofs7 TrieCowModel.
From Verif Require Import TrieCowProofs TrieCowProofs2 TrieCowProofs3 TrieCowProofs4 TrieCowProofs5 TrieCowProofs6 TrieCowProofs7.
From Coq Require Import Sorted.

(** *** Histories
    [idle h t m]: a trie outside of transactions, after any calls, holding the finite map m.
    [open h c mo mn]: a trie in a transaction: mo is the map at the start of the transaction, mn is what
    the calls of the transaction made of it. In all calls any allocations may fail. The maps are those
    that the calls describe; nothing below says what is in the memory. *)
Definition val_of (m : kmap) (k : list Z) : Z := match m k with Some v => v | None => 0 end.
Inductive idle : heap -> htrie -> kmap -> Prop :=
| i_create : idle (fst h_create) (snd h_create) kempty
| i_insert : forall h t m al stk k h' t' p, idle h t m -> key_ok k ->
    cow_get_ins al stk false h t k = Ok (h', t', Some p) -> idle h' t' (kset m k (Some (val_of m k)))
| i_insert_failed : forall h t m al stk k h' t', idle h t m -> key_ok k ->
    cow_get_ins al stk false h t k = Ok (h', t', None) -> idle h' t' m
| i_store : forall h t m al stk k h' t' p v h2 t2, idle h t m -> key_ok k ->
    cow_get_ins al stk false h t k = Ok (h', t', Some p) -> h_write h' t' p v = Ok (h2, t2) ->
    idle h2 t2 (kset m k (Some v))
| i_delete : forall h t m al k h' t' v, idle h t m -> bytes k -> h_del al h t k = Ok (h', t', v) -> idle h' t' (kset m k None)
| i_cow_failed : forall h t m ok h', idle h t m -> trie_cow ok h t = Ok (h', None) -> idle h' t m
| i_commit : forall h c mo mn h' t', open h c mo mn -> trie_cow_commit h c = Ok (h', t') -> idle h' t' mn
| i_rollback : forall h c mo mn h' t', open h c mo mn -> trie_cow_rollback h c = Ok (h', t') -> idle h' t' mo
with open : heap -> cow -> kmap -> kmap -> Prop :=
| o_start : forall h t m ok h' c, idle h t m -> trie_cow ok h t = Ok (h', Some c) -> open h' c m m
| o_insert : forall h c mo mn al stk k h' c' p, open h c mo mn -> key_ok k ->
    trie_get_cow al stk h c k = Ok (h', c', Some p) -> open h' c' mo (kset mn k (Some (val_of mn k)))
| o_insert_failed : forall h c mo mn al stk k h' c', open h c mo mn -> key_ok k ->
    trie_get_cow al stk h c k = Ok (h', c', None) -> open h' c' mo mn
| o_store : forall h c mo mn al stk k h' c' p v h2 c2, open h c mo mn -> key_ok k ->
    trie_get_cow al stk h c k = Ok (h', c', Some p) -> cow_write h' c' p v = Ok (h2, c2) ->
    open h2 c2 mo (kset mn k (Some v))
| o_delete : forall h c mo mn al stk k h' c' v, open h c mo mn -> key_ok k ->
    trie_del_cow al stk h c k = Ok (h', c', inl v) -> open h' c' mo (kset mn k None)
| o_delete_failed : forall h c mo mn al stk k h' c' e, open h c mo mn -> key_ok k ->
    trie_del_cow al stk h c k = Ok (h', c', inr e) -> open h' c' mo mn.
Scheme idle_open_ind := Induction for idle Sort Prop with open_idle_ind := Induction for open Sort Prop.

(** *** What holds in all histories *)
Definition has (tr : trie) (m : kmap) : Prop := twf tr /\ forall k v, In (k, v) (content tr) <-> m k = Some v.
Lemma write_fill : forall fs g g' p v, write_at (erase g) p v = Ok (erase g') -> write_at (erase (fill fs g)) (fpath fs ++ p) v = Ok (erase (fill fs g')).
Proof.
  induction fs as [|f fs IH]; intros g g' p v H; [exact H|]. rewrite fpath_cons, <- app_assoc. cbn [fill app]. apply IH. cbn [erase write_at]. rewrite !map_app. cbn [map]. rewrite <- (zlen_map erase (f_l f)), zget_mid, H. cbn [rbind]. rewrite zset_mid. auto.
Qed.
Lemma has_write : forall t m al k t' fs ka v0 v w, has t m -> key_ok k -> trie_get_ins al t k = Ok (mkt (erase (fill fs (GL false ka k v0))) w, Some (fpath fs)) ->
  t' = mkt (erase (fill fs (GL false ka k v))) w -> has t' (kset m k (Some v)).
Proof.
  intros t m al k t' fs ka v0 v w [T M] K E ->. destruct (kv_get_ins t m al k _ _ T M K E) as (T' & v1 & L & I0 & Ev & Q).
  pose proof (write_fill fs (GL false ka k v0) (GL false ka k v) [] v eq_refl) as X. rewrite app_nil_r in X.
  destruct (kv_write _ _ k (fpath fs) v1 v _ T' Q I0 L X) as [T2 Q2]. split; [exact T2|]. intros x y. cbn [t_weight] in Q2. rewrite Q2. unfold kset. destruct (key_eq_dec x k); tauto.
Qed.
Lemma has_ins : forall t m al k t' p, has t m -> key_ok k -> trie_get_ins al t k = Ok (t', Some p) -> has t' (kset m k (Some (val_of m k))).
Proof. intros t m al k t' p [T M] K E. destruct (kv_get_ins t m al k _ _ T M K E) as (T' & v1 & L & I0 & Ev & Q). unfold val_of. rewrite <- Ev. split; auto. Qed.
Definition idle_ok (h : heap) (t : htrie) (m : kmap) : Prop := exists gn, inv h None gn /\ trep t gn /\ has (tree t gn) m.
Definition open_ok (h : heap) (c : cow) (mo mn : kmap) : Prop := exists go gn, inv h go gn /\ trep (cw_old c) go /\ trep (cw_new c) gn /\ has (tree (cw_old c) go) mo /\ has (tree (cw_new c) gn) mn.
Lemma ew_trep : forall t go go', option_map ew go' = option_map ew go -> trep t go -> trep t go' /\ tree t go' = tree t go.
Proof. intros t [g|] [g'|] E T; cbn [option_map] in E; try discriminate; [|auto]. injection E as E1 E2. cbn [trep tree] in *. rewrite E1, E2. auto. Qed.

Lemma idle_create : idle_ok (fst h_create) (snd h_create) kempty.
Proof.
  exists None. split; [|split; [reflexivity|split; [left; split; reflexivity|intros k v; cbn; unfold kempty; split; [tauto|discriminate]]]].
  constructor; cbn; auto; try tauto; [constructor|lia].
Qed.
Lemma idle_ins : forall h t m al stk k, idle_ok h t m -> key_ok k -> exists h' t' r, cow_get_ins al stk false h t k = Ok (h', t', r) /\
  match r with
  | None => idle_ok h' t' m /\ failed al stk
  | Some p => idle_ok h' t' (kset m k (Some (val_of m k))) /\ forall v, exists h2 t2, h_write h' t' p v = Ok (h2, t2) /\ idle_ok h2 t2 (kset m k (Some v))
  end.
Proof.
  intros h t m al stk k (gn & I & T & H) K. destruct (cow_ins_spec al stk false h t k None gn I T (proj1 H) ltac:(auto) K) as (h' & t' & r & go' & gn' & E & I' & EO & CW & T' & R). rewrite (CW eq_refl) in *. exists h', t', r. split; [auto|]. destruct r as [p|].
  - destruct R as (fs & ka & v0 & -> & -> & R). split; [exists (Some (fill fs (GL false ka k v0))); split; [auto|]; split; [auto|]; eapply has_ins; eauto|].
    intros v. destruct (h_write_spec h' t' None fs ka k v0 v I' T') as (h2 & t2 & E2 & I2 & T2 & W2). exists h2, t2. split; [auto|]. exists (Some (fill fs (GL false ka k v))). split; [auto|]. split; [auto|].
    eapply has_write; [exact H|exact K|exact R|]. cbn [tree]. rewrite W2. auto.
  - destruct R as [R F]. split; [|auto]. exists gn'. rewrite R. auto.
Qed.
Lemma open_ins : forall h c mo mn al stk k, open_ok h c mo mn -> key_ok k -> exists h' c' r, trie_get_cow al stk h c k = Ok (h', c', r) /\
  match r with
  | None => open_ok h' c' mo mn /\ failed al stk
  | Some p => open_ok h' c' mo (kset mn k (Some (val_of mn k))) /\ forall v, exists h2 c2, cow_write h' c' p v = Ok (h2, c2) /\ open_ok h2 c2 mo (kset mn k (Some v))
  end.
Proof.
  intros h c mo mn al stk k (go & gn & I & T & TN & H & HN) K. destruct (cow_ins_spec al stk true h (cw_new c) k go gn I TN (proj1 HN) ltac:(discriminate) K) as (h' & t' & r & go' & gn' & E & I' & EO & CW & T' & R). unfold trie_get_cow. rewrite E. cbn [rbind]. exists h', (mkcow (cw_old c) t'), r. split; [auto|].
  destruct (ew_trep _ _ _ EO T) as [TO TE]. rewrite <- TE in H. destruct r as [p|].
  - destruct R as (fs & ka & v0 & -> & -> & R). split; [exists go', (Some (fill fs (GL false ka k v0))); cbn [cw_old cw_new]; split; [auto|]; split; [auto|]; split; [auto|]; split; [auto|]; eapply has_ins; eauto|].
    intros v. destruct (h_write_spec h' t' go' fs ka k v0 v I' T') as (h2 & t2 & E2 & I2 & T2 & W2). unfold cow_write. cbn [cw_new cw_old]. rewrite E2. cbn [rbind]. exists h2, (mkcow (cw_old c) t2). split; [auto|]. exists go', (Some (fill fs (GL false ka k v))). cbn [cw_old cw_new]. split; [auto|]. split; [auto|]. split; [auto|]. split; [auto|].
    eapply has_write; [exact HN|exact K|exact R|]. cbn [tree]. rewrite W2. auto.
  - destruct R as [R F]. split; [|auto]. exists go', gn'. cbn [cw_old cw_new]. rewrite R. auto.
Qed.
Lemma idle_del : forall h t m al k, idle_ok h t m -> bytes k ->
  match m k with
  | Some v => exists h' t', h_del al h t k = Ok (h', t', v) /\ idle_ok h' t' (kset m k None)
  | None => h_del al h t k = Err KNOT_ENOENT
  end.
Proof.
  intros h t m al k (gn & I & T & H) B. pose proof H as [TW M]. destruct (h_del_spec al h t k gn I T TW B) as [(h' & t' & v & gn' & E & I' & T' & R)|[E R]]; destruct (del_spec (tree t gn) k TW B) as [(t1 & v1 & l1 & l2 & E' & T1 & E1 & E2)|[E' N]]; try congruence.
  - rewrite R in E'. inversion E'; subst t1 v1. destruct (kv_del _ _ m k v l1 l2 TW M E1 E2) as [Ek Q]. rewrite Ek. exists h', t'. split; [auto|]. exists gn'. split; [auto|]. split; [auto|]. split; auto.
  - destruct (m k) as [v|] eqn:Em; [|auto]. exfalso. apply (N v). apply M. auto.
Qed.
Lemma open_del : forall h c mo mn al stk k, open_ok h c mo mn -> key_ok k -> exists h' c' r, trie_del_cow al stk h c k = Ok (h', c', r) /\
  match r with
  | inl v => mn k = Some v /\ open_ok h' c' mo (kset mn k None)
  | inr e => open_ok h' c' mo mn /\ (e = KNOT_ENOENT /\ mn k = None \/ e = KNOT_ENOMEM /\ failed al stk)
  end.
Proof.
  intros h c mo mn al stk k (go & gn & I & T & TN & H & HN) K. pose proof HN as [TW M]. destruct (cow_del_spec al stk h c k go gn I TN TW K) as (h' & t' & r & go' & gn' & E & I' & EO & T' & R). exists h', (mkcow (cw_old c) t'), r. split; [auto|].
  destruct (ew_trep _ _ _ EO T) as [TO TE]. rewrite <- TE in H. destruct r as [v|e].
  - destruct R as (TW' & l1 & l2 & E1 & E2). destruct (kv_del _ _ mn k v l1 l2 TW M E1 E2) as [Ek Q]. split; [auto|]. exists go', gn'. cbn [cw_old cw_new]. split; [auto|]. split; [auto|]. split; [auto|]. split; [auto|]. split; auto.
  - destruct R as [R F]. split; [exists go', gn'; cbn [cw_old cw_new]; rewrite R; auto|]. destruct F as [[-> F]|[-> F]]; [left|right; auto]. split; [auto|]. destruct (mn k) as [v|] eqn:Em; [|auto]. exfalso. apply (F v). apply M. auto.
Qed.
Lemma start_ok : forall h t m ok, idle_ok h t m -> exists h' c, trie_cow ok h t = Ok (h', c) /\
  match c with None => ok = false /\ idle_ok h' t m | Some c => ok = true /\ open_ok h' c m m end.
Proof.
  intros h t m ok (gn & I & T & H). destruct (trie_cow_spec ok h t gn I T) as (h' & c & E & R). exists h', c. split; [auto|]. destruct c as [c|].
  - destruct R as (-> & -> & gn' & I' & T' & EE). split; [auto|]. exists gn', gn'. cbn [cw_old cw_new].
    assert (X : tree t gn' = tree t gn) by (destruct gn, gn'; cbn [option_map] in EE; try discriminate; [injection EE as EE; cbn [tree]; rewrite EE; auto|auto]). rewrite X. auto.
  - destruct R as [-> ->]. split; [auto|]. exists gn. auto.
Qed.
Lemma commit_ok : forall h c mo mn, open_ok h c mo mn -> exists h', trie_cow_commit h c = Ok (h', cw_new c) /\ idle_ok h' (cw_new c) mn.
Proof.
  intros h c mo mn (go & gn & I & T & TN & H & HN). destruct (commit_spec h c go gn I T TN (proj1 H)) as (h' & E & I'). exists h'. split; [auto|]. exists (ounsh gn). split; [auto|]. split; [apply trep_unsh; auto|]. rewrite tree_unsh. auto.
Qed.
Lemma rollback_ok : forall h c mo mn, open_ok h c mo mn -> exists h', trie_cow_rollback h c = Ok (h', cw_old c) /\ idle_ok h' (cw_old c) mo.
Proof.
  intros h c mo mn (go & gn & I & T & TN & H & HN). destruct (rollback_spec h c go gn I T TN (proj1 HN)) as (h' & E & I'). exists h'. split; [auto|]. exists (ounsh go). split; [auto|]. split; [apply trep_unsh; auto|]. rewrite tree_unsh. auto.
Qed.
Lemma histories : (forall h t m, idle h t m -> idle_ok h t m) /\ (forall h c mo mn, open h c mo mn -> open_ok h c mo mn).
Proof.
  assert (X : forall h t m (H : idle h t m), idle_ok h t m).
  { apply (idle_open_ind (fun h t m _ => idle_ok h t m) (fun h c mo mn _ => open_ok h c mo mn)).
    - exact idle_create.
    - intros h t m al stk k h' t' p _ IH K E. destruct (idle_ins h t m al stk k IH K) as (h1 & t1 & r & E1 & R). rewrite E in E1. inversion E1; subst. apply R.
    - intros h t m al stk k h' t' _ IH K E. destruct (idle_ins h t m al stk k IH K) as (h1 & t1 & r & E1 & R). rewrite E in E1. inversion E1; subst. apply R.
    - intros h t m al stk k h' t' p v h2 t2 _ IH K E EW. destruct (idle_ins h t m al stk k IH K) as (h1 & t1 & r & E1 & R). rewrite E in E1. inversion E1; subst. destruct (proj2 R v) as (h3 & t3 & E3 & R3). rewrite EW in E3. inversion E3; subst. auto.
    - intros h t m al k h' t' v _ IH B E. pose proof (idle_del h t m al k IH B) as R. destruct (m k) as [w|]; [|congruence]. destruct R as (h1 & t1 & E1 & R). rewrite E in E1. inversion E1; subst. auto.
    - intros h t m ok h' _ IH E. destruct (start_ok h t m ok IH) as (h1 & c & E1 & R). rewrite E in E1. inversion E1; subst. apply R.
    - intros h c mo mn h' t' _ IH E. destruct (commit_ok h c mo mn IH) as (h1 & E1 & R). rewrite E in E1. inversion E1; subst. auto.
    - intros h c mo mn h' t' _ IH E. destruct (rollback_ok h c mo mn IH) as (h1 & E1 & R). rewrite E in E1. inversion E1; subst. auto.
    - intros h t m ok h' c _ IH E. destruct (start_ok h t m ok IH) as (h1 & c1 & E1 & R). rewrite E in E1. inversion E1; subst. apply R.
    - intros h c mo mn al stk k h' c' p _ IH K E. destruct (open_ins h c mo mn al stk k IH K) as (h1 & t1 & r & E1 & R). rewrite E in E1. inversion E1; subst. apply R.
    - intros h c mo mn al stk k h' c' _ IH K E. destruct (open_ins h c mo mn al stk k IH K) as (h1 & t1 & r & E1 & R). rewrite E in E1. inversion E1; subst. apply R.
    - intros h c mo mn al stk k h' c' p v h2 c2 _ IH K E EW. destruct (open_ins h c mo mn al stk k IH K) as (h1 & t1 & r & E1 & R). rewrite E in E1. inversion E1; subst. destruct (proj2 R v) as (h3 & t3 & E3 & R3). rewrite EW in E3. inversion E3; subst. auto.
    - intros h c mo mn al stk k h' c' v _ IH K E. destruct (open_del h c mo mn al stk k IH K) as (h1 & t1 & r & E1 & R). rewrite E in E1. inversion E1; subst. apply R.
    - intros h c mo mn al stk k h' c' e _ IH K E. destruct (open_del h c mo mn al stk k IH K) as (h1 & t1 & r & E1 & R). rewrite E in E1. inversion E1; subst. apply R. }
  split; [exact X|]. intros h c mo mn H. induction H as [h t m ok h' c H E|h c mo mn al stk k h' c' p H IH K E|h c mo mn al stk k h' c' H IH K E|h c mo mn al stk k h' c' p v h2 c2 H IH K E EW|h c mo mn al stk k h' c' v H IH K E|h c mo mn al stk k h' c' e H IH K E].
  - destruct (start_ok h t m ok (X _ _ _ H)) as (h1 & c1 & E1 & R). rewrite E in E1. inversion E1; subst. apply R.
  - destruct (open_ins h c mo mn al stk k IH K) as (h1 & t1 & r & E1 & R). rewrite E in E1. inversion E1; subst. apply R.
  - destruct (open_ins h c mo mn al stk k IH K) as (h1 & t1 & r & E1 & R). rewrite E in E1. inversion E1; subst. apply R.
  - destruct (open_ins h c mo mn al stk k IH K) as (h1 & t1 & r & E1 & R). rewrite E in E1. inversion E1; subst. destruct (proj2 R v) as (h3 & t3 & E3 & R3). rewrite EW in E3. inversion E3; subst. auto.
  - destruct (open_del h c mo mn al stk k IH K) as (h1 & t1 & r & E1 & R). rewrite E in E1. inversion E1; subst. apply R.
  - destruct (open_del h c mo mn al stk k IH K) as (h1 & t1 & r & E1 & R). rewrite E in E1. inversion E1; subst. apply R.
Qed.
Lemma get_has : forall h t go gn m k, inv h go gn -> trep t gn -> has (tree t gn) m -> bytes k -> h_get_try h t k = Ok (m k).
Proof.
  intros h t go gn m k I T [TW M] B. unfold h_get_try. rewrite (hload_spec _ _ _ _ I T). cbn [rbind]. destruct (get_try_spec _ k TW B) as [(p & v & E & L & I0)|[E N]]; rewrite E; cbn [rbind].
  - rewrite (val_at_leaf _ _ _ _ L). cbn [rbind]. apply M in I0. rewrite I0. auto.
  - destruct (m k) as [v|] eqn:Em; [|auto]. exfalso. apply (N v). apply M. auto.
Qed.

(** *** C31 *)
(** While a transaction is open, every lookup in the old version gives what it gave at the start of the
    transaction, whatever the transaction did; lookups in the new version give what the transaction made
    of it. *)
Theorem c31_isolation : forall h c mo mn k, open h c mo mn -> bytes k ->
  h_get_try h (cw_old c) k = Ok (mo k) /\ h_get_try h (trie_cow_new c) k = Ok (mn k).
Proof.
  intros h c mo mn k H B. destruct (proj2 histories _ _ _ _ H) as (go & gn & I & T & TN & HO & HN). split; [|eapply get_has; eauto]. eapply get_has; [apply inv_sym; exact I|exact T|auto|auto].
Qed.
(** Outside of transactions, lookups give the current map. *)
Theorem c31_get : forall h t m k, idle h t m -> bytes k -> h_get_try h t k = Ok (m k).
Proof. intros h t m k H B. destruct (proj1 histories _ _ _ H) as (gn & I & T & HN). eapply get_has; eauto. Qed.

(** Starting a transaction changes nothing: both versions hold the current map. *)
Theorem c31_start : forall h t m k, idle h t m -> bytes k ->
  exists h' c, trie_cow true h t = Ok (h', Some c) /\ open h' c m m /\ h_get_try h' (cw_old c) k = Ok (m k) /\ h_get_try h' (trie_cow_new c) k = Ok (m k).
Proof.
  intros h t m k H B. destruct (start_ok h t m true (proj1 histories _ _ _ H)) as (h' & [c|] & E & R); [|destruct R; discriminate]. exists h', c. pose proof (o_start _ _ _ _ _ _ H E) as O. split; [auto|]. split; [auto|]. apply (c31_isolation _ _ _ _ k O B).
Qed.
(** Commit always succeeds, and the new content remains. *)
Theorem c31_commit : forall h c mo mn, open h c mo mn ->
  exists h', trie_cow_commit h c = Ok (h', trie_cow_new c) /\ idle h' (trie_cow_new c) mn /\ forall k, bytes k -> h_get_try h' (trie_cow_new c) k = Ok (mn k).
Proof.
  intros h c mo mn H. destruct (commit_ok _ _ _ _ (proj2 histories _ _ _ _ H)) as (h' & E & R). exists h'. pose proof (i_commit _ _ _ _ _ _ H E) as O. split; [auto|]. split; [auto|]. intros k B. apply (c31_get _ _ _ k O B).
Qed.
(** Rollback always succeeds, and the old content remains. *)
Theorem c31_rollback : forall h c mo mn, open h c mo mn ->
  exists h', trie_cow_rollback h c = Ok (h', cw_old c) /\ idle h' (cw_old c) mo /\ forall k, bytes k -> h_get_try h' (cw_old c) k = Ok (mo k).
Proof.
  intros h c mo mn H. destruct (rollback_ok _ _ _ _ (proj2 histories _ _ _ _ H)) as (h' & E & R). exists h'. pose proof (i_rollback _ _ _ _ _ _ H E) as O. split; [auto|]. split; [auto|]. intros k B. apply (c31_get _ _ _ k O B).
Qed.

(** Some allocation of the call did not succeed. *)
Definition out_of_memory (al stk : Z -> bool) : Prop := exists n, al n = false \/ stk n = false.
(** Insertion in a transaction finds or makes the key, at an address that can be written; it fails only
    when an allocation fails, and then both versions are as before. Nothing freed is ever touched. *)
Theorem c31_insert : forall h c mo mn al stk k, open h c mo mn -> key_ok k ->
  exists h' c' r, trie_get_cow al stk h c k = Ok (h', c', r) /\
  match r with
  | Some p => open h' c' mo (kset mn k (Some (val_of mn k))) /\
      forall v, exists h2 c2, cow_write h' c' p v = Ok (h2, c2) /\ open h2 c2 mo (kset mn k (Some v))
  | None => open h' c' mo mn /\ out_of_memory al stk
  end.
Proof.
  intros h c mo mn al stk k H K. destruct (open_ins h c mo mn al stk k (proj2 histories _ _ _ _ H) K) as (h' & c' & r & E & R). exists h', c', r. split; [auto|]. destruct r as [p|].
  - split; [eapply o_insert; eauto|]. intros v. destruct (proj2 R v) as (h2 & c2 & E2 & _). exists h2, c2. split; [auto|]. eapply o_store; eauto.
  - split; [eapply o_insert_failed; eauto|apply R].
Qed.
(** Deletion in a transaction gives the value of the key in the new version. It fails only when the key is
    not there, or when an allocation fails; then both versions are as before. *)
Theorem c31_delete : forall h c mo mn al stk k, open h c mo mn -> key_ok k ->
  exists h' c' r, trie_del_cow al stk h c k = Ok (h', c', r) /\
  match r with
  | inl v => mn k = Some v /\ open h' c' mo (kset mn k None)
  | inr e => open h' c' mo mn /\ (e = KNOT_ENOENT /\ mn k = None \/ e = KNOT_ENOMEM /\ out_of_memory al stk)
  end.
Proof.
  intros h c mo mn al stk k H K. destruct (open_del h c mo mn al stk k (proj2 histories _ _ _ _ H) K) as (h' & c' & r & E & R). exists h', c', r. split; [auto|]. destruct r as [v|e].
  - split; [apply R|eapply o_delete; eauto; apply R].
  - split; [eapply o_delete_failed; eauto|]. apply R.
Qed.
(** Outside of transactions the same (also after any number of transactions). *)
Theorem c31_idle_ops : forall h t m al stk k, idle h t m -> key_ok k ->
  (exists h' t' r, cow_get_ins al stk false h t k = Ok (h', t', r) /\
    match r with
    | Some p => forall v, exists h2 t2, h_write h' t' p v = Ok (h2, t2) /\ idle h2 t2 (kset m k (Some v))
    | None => idle h' t' m /\ out_of_memory al stk
    end) /\
  match m k with
  | Some v => exists h' t', h_del al h t k = Ok (h', t', v) /\ idle h' t' (kset m k None)
  | None => h_del al h t k = Err KNOT_ENOENT
  end.
Proof.
  intros h t m al stk k H K. pose proof (proj1 histories _ _ _ H) as O. split.
  - destruct (idle_ins h t m al stk k O K) as (h' & t' & r & E & R). exists h', t', r. split; [auto|]. destruct r as [p|].
    + intros v. destruct (proj2 R v) as (h2 & t2 & E2 & _). exists h2, t2. split; [auto|]. eapply i_store; eauto.
    + split; [eapply i_insert_failed; eauto|apply R].
  - pose proof (idle_del h t m al k O (proj1 K)) as R. destruct (m k) as [v|]; [|auto]. destruct R as (h' & t' & E & R). exists h', t'. split; [auto|]. eapply i_delete; eauto. apply K.
Qed.

(** *** Memory
    [reach h w a]: following pointers from the node w one comes to the object a. *)
Inductive reach (h : heap) : word -> Z -> Prop :=
| r_key : forall ka v, reach h (WLeaf ka v) ka
| r_arr : forall i b aa, reach h (WBranch i b aa) aa
| r_twig : forall i b aa cs c a, h_arr h aa = Ok cs -> In c cs -> reach h (c_w c) a -> reach h (WBranch i b aa) a.
Definition belongs (h : heap) (t : htrie) (a : Z) : Prop := ht_weight t <> 0 /\ reach h (c_w (ht_root t)) a.
Lemma cells_in : forall s ws w, In w ws -> exists c, In c (cells s ws) /\ c_w c = w.
Proof. intros s [|x ws] w H; [destruct H|]. destruct H as [->|H]; cbn [cells]; [exists (mkc s w); cbn; auto|]. exists (mkc false w). split; [right; apply in_map_iff; eauto|auto]. Qed.
Lemma alla_reach : forall h g a, holds h g -> In a (alla g) -> reach h (word_of g) a.
Proof.
  intros h. induction g as [s ka k v|s i b aa tw IH] using gnode_ind2; intros a H A; cbn [alla] in A.
  - destruct A as [<-|[]]. constructor.
  - apply holds_B in H. destruct H as (HA & _ & HC). destruct A as [<-|A]; [constructor|]. apply in_flat_map in A. destruct A as (g & G & A). rewrite Forall_forall in *. destruct (cells_in s (map word_of tw) (word_of g) ltac:(apply in_map; auto)) as (c & C & E).
    eapply r_twig; [unfold h_arr; rewrite HA; reflexivity|exact C|]. rewrite E. auto.
Qed.
Lemma belongs_alla : forall h t gn a, trep t gn -> oholds h gn -> In a (oalla gn) -> belongs h t a.
Proof. intros h t [g|] a T H A; [|destruct A]. destruct T as [TR TN]. split; [auto|]. rewrite TR. cbn [c_w]. apply alla_reach; auto. Qed.
(** Outside of transactions every live object belongs to the trie: commit frees what only the old version
    used, rollback what only the new version used, and nothing else leaks. *)
Theorem c31_no_leak : forall h t m a, idle h t m -> h_get h a <> None -> belongs h t a.
Proof.
  intros h t m a H A. destruct (proj1 histories _ _ _ H) as (gn & I & T & HN). eapply belongs_alla; [exact T|apply I|]. apply (i_dom _ _ _ I) in A. cbn [oexcl app] in A. eapply Permutation.Permutation_in; [symmetry; apply oalla_split|exact A].
Qed.
(** In a transaction every live object belongs to one of the versions. *)
Theorem c31_no_leak_open : forall h c mo mn a, open h c mo mn -> h_get h a <> None -> belongs h (cw_old c) a \/ belongs h (trie_cow_new c) a.
Proof.
  intros h c mo mn a H A. destruct (proj2 histories _ _ _ _ H) as (go & gn & I & T & TN & _). apply (i_dom _ _ _ I) in A. rewrite in_app_iff in A. destruct A as [A|A].
  - left. eapply belongs_alla; [exact T|apply I|]. eapply Permutation.Permutation_in; [symmetry; apply oalla_split|apply in_app_iff; auto].
  - right. eapply belongs_alla; [exact TN|apply I|]. eapply Permutation.Permutation_in; [symmetry; apply oalla_split|exact A].
Qed.

(** *** Examples: a transaction with real sharing *)
Definition yes (_ : Z) : bool := true.
Definition k_a : list Z := [97].  Definition k_ab : list Z := [97; 98].  Definition k_b : list Z := [98].  Definition k_c : list Z := [99; 1].
(** insert and store, outside of and in transactions *)
Definition put1 (s : heap * htrie) (k : list Z) (v : Z) : res (heap * htrie) :=
  let* (h, t, p) := cow_get_ins yes yes false (fst s) (snd s) k in
  match p with Some p => h_write h t p v | None => UB end.
Definition put2 (s : heap * cow) (k : list Z) (v : Z) : res (heap * cow) :=
  let* (h, c, p) := trie_get_cow yes yes (fst s) (snd s) k in
  match p with Some p => cow_write h c p v | None => UB end.
Definition del2 (s : heap * cow) (k : list Z) : res (heap * cow * (Z + Z)) := trie_del_cow yes yes (fst s) (snd s) k.
(** a: 1, ab: 2, b: 3 *)
Definition base : res (heap * htrie) := let* s := put1 h_create k_a 1 in let* s := put1 s k_ab 2 in put1 s k_b 3.
(** then a transaction: ab: 20, c: 4, and b deleted *)
Definition txn : res (heap * cow) :=
  let* s := base in let* (h, c) := trie_cow true (fst s) (snd s) in
  match c with
  | None => UB
  | Some c => let* s := put2 (h, c) k_ab 20 in let* s := put2 s k_c 4 in let* (h, c, _) := del2 s k_b in Ok (h, c)
  end.
Definition seen (h : heap) (t : htrie) : res (list (option Z)) := map_res (h_get_try h t) [k_a; k_ab; k_b; k_c].
Example c31_example_base : (let* s := base in seen (fst s) (snd s)) = Ok [Some 1; Some 2; Some 3; None].
Proof. vm_compute. reflexivity. Qed.
Example c31_example_old : (let* s := txn in seen (fst s) (cw_old (snd s))) = Ok [Some 1; Some 2; Some 3; None].
Proof. vm_compute. reflexivity. Qed.
Example c31_example_new : (let* s := txn in seen (fst s) (trie_cow_new (snd s))) = Ok [Some 1; Some 20; None; Some 4].
Proof. vm_compute. reflexivity. Qed.
Example c31_example_commit : (let* s := txn in let* (h, t) := trie_cow_commit (fst s) (snd s) in seen h t) = Ok [Some 1; Some 20; None; Some 4].
Proof. vm_compute. reflexivity. Qed.
Example c31_example_rollback : (let* s := txn in let* (h, t) := trie_cow_rollback (fst s) (snd s) in seen h t) = Ok [Some 1; Some 2; Some 3; None].
Proof. vm_compute. reflexivity. Qed.
(** a transaction that fails in the middle: the second allocation of the insertion fails *)
Example c31_example_failed :
  (let* s := base in let* (h, c) := trie_cow true (fst s) (snd s) in
   match c with
   | None => UB
   | Some c =>
     let* (h', c, p) := trie_get_cow (fun n => n =? h_next h) yes h c k_c in
     match p with Some _ => UB | None =>
       let* a := seen h' (cw_old c) in let* b := seen h' (trie_cow_new c) in Ok (a, b, h_next h' =? h_next h) end
   end) = Ok ([Some 1; Some 2; Some 3; None], [Some 1; Some 2; Some 3; None], false).
Proof. vm_compute. reflexivity. Qed.
(** the objects alive: three keys and two arrays at the start; 9 in the transaction (copies of both arrays,
    of the key ab, and the new key; a and, until it was deleted, b shared); three keys and two arrays after
    commit, and after rollback *)
Definition alive (h : heap) : list Z := filter (fun a => match h_get h a with Some _ => true | None => false end) (map Z.of_nat (seq 0 (Z.to_nat (h_next h)))).
Example c31_example_alive :
  (let* s := base in let* u := txn in let* (h1, _) := trie_cow_commit (fst u) (snd u) in let* (h2, _) := trie_cow_rollback (fst u) (snd u) in
   Ok (zlen (alive (fst s)), zlen (alive (fst u)), zlen (alive h1), zlen (alive h2))) = Ok (5, 9, 5, 5).
Proof. vm_compute. reflexivity. Qed.
(** the histories of the theorems contain this one *)
Lemma key_a : key_ok k_a. Proof. split; [repeat constructor; lia|vm_compute; reflexivity]. Qed.
Lemma key_ab : key_ok k_ab. Proof. split; [repeat constructor; lia|vm_compute; reflexivity]. Qed.
Lemma key_b : key_ok k_b. Proof. split; [repeat constructor; lia|vm_compute; reflexivity]. Qed.
Lemma key_c : key_ok k_c. Proof. split; [repeat constructor; lia|vm_compute; reflexivity]. Qed.
Lemma put1_idle : forall s m k v, idle (fst s) (snd s) m -> key_ok k -> exists s', put1 s k v = Ok s' /\ idle (fst s') (snd s') (kset m k (Some v)).
Proof.
  intros [h t] m k v H K. unfold put1. cbn [fst snd] in *. destruct (c31_idle_ops h t m yes yes k H K) as [(h' & t' & r & -> & R) _]. cbn [rbind]. destruct r as [p|]; [|destruct R as [_ [n [N|N]]]; discriminate N].
  destruct (R v) as (h2 & t2 & E & O). exists (h2, t2). auto.
Qed.
Lemma put2_open : forall s mo mn k v, open (fst s) (snd s) mo mn -> key_ok k -> exists s', put2 s k v = Ok s' /\ open (fst s') (snd s') mo (kset mn k (Some v)).
Proof.
  intros [h c] mo mn k v H K. unfold put2. cbn [fst snd] in *. destruct (c31_insert h c mo mn yes yes k H K) as (h' & t' & r & -> & R). cbn [rbind]. destruct r as [p|]; [|destruct R as [_ [n [N|N]]]; discriminate N].
  destruct (proj2 R v) as (h2 & t2 & E & O). exists (h2, t2). auto.
Qed.
Example c31_example_history : exists h c, txn = Ok (h, c) /\
  let m := kset (kset (kset kempty k_a (Some 1)) k_ab (Some 2)) k_b (Some 3) in
  open h c m (kset (kset (kset m k_ab (Some 20)) k_c (Some 4)) k_b None).
Proof.
  unfold txn, base.
  destruct (put1_idle h_create kempty k_a 1 i_create key_a) as (s1 & -> & H1). cbn [rbind]. destruct (put1_idle s1 _ k_ab 2 H1 key_ab) as (s2 & -> & H2). cbn [rbind]. destruct (put1_idle s2 _ k_b 3 H2 key_b) as (s3 & -> & H3). cbn [rbind].
  destruct (c31_start _ _ _ k_a H3 (proj1 key_a)) as (h4 & c4 & -> & H4 & _). cbn [rbind].
  destruct (put2_open (h4, c4) _ _ k_ab 20 H4 key_ab) as (s5 & -> & H5). cbn [rbind]. destruct (put2_open s5 _ _ k_c 4 H5 key_c) as (s6 & -> & H6). cbn [rbind]. unfold del2.
  destruct (c31_delete _ _ _ _ yes yes k_b H6 key_b) as (h7 & c7 & r & -> & R). cbn [rbind]. exists h7, c7. split; [auto|]. destruct r as [v|e]; [apply R|].
  destruct R as (_ & [[_ N]|[_ [n [N|N]]]]); [vm_compute in N; discriminate N|discriminate N|discriminate N].
Qed.

Print Assumptions c31_isolation.
Print Assumptions c31_get.
Print Assumptions c31_start.
Print Assumptions c31_commit.
Print Assumptions c31_rollback.
Print Assumptions c31_insert.
Print Assumptions c31_delete.
Print Assumptions c31_idle_ops.
Print Assumptions c31_no_leak.
Print Assumptions c31_no_leak_open.
