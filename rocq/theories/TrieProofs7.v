(** The finite map that a trie holds: the steps of the API on it. *)
From Verif Require Import Base TrieModel TrieSpec TrieProofs TrieProofs2 TrieProofs3 TrieProofs4 TrieProofs5 TrieProofs6.
From Coq Require Import Sorted.

Lemma kv_fun : forall t k v1 v2, twf t -> In (k, v1) (content t) -> In (k, v2) (content t) -> v1 = v2.
Proof.
  intros t k v1 v2 T. apply sorted_fun. apply content_sorted; auto.
Qed.
Lemma kv_ins : forall l1 l2 (k : list Z) (v : Z) (m : kmap), (forall x w, In (x, w) (l1 ++ l2) <-> m x = Some w) -> StronglySorted kvlt (l1 ++ (k, v) :: l2) ->
     forall x w, In (x, w) (l1 ++ (k, v) :: l2) <-> kset m k (Some v) x = Some w.
Proof.
  intros l1 l2 k v m M S x w. unfold kset. destruct (key_eq_dec x k) as [->|N].
    - split; [|intros X; inversion X; apply in_app_iff; right; left; auto]. intros H. f_equal. eapply sorted_fun; [exact S| |exact H]. apply in_app_iff. right. left. auto.
    - rewrite <- M. rewrite !in_app_iff. cbn. split; [intros [H|[H|H]]; auto; inversion H; congruence|intros [H|H]; auto].
Qed.
Lemma kv_write : forall t m k p v0 v r, twf t -> (forall x w, In (x, w) (content t) <-> m x = Some w) -> In (k, v0) (content t) -> leaf_at (t_root t) p = Some (k, v0) -> write_at (t_root t) p v = Ok r ->
     twf (mkt r (t_weight t)) /\ forall x w, In (x, w) (content (mkt r (t_weight t))) <-> kset m k (Some v) x = Some w.
Proof.
  intros t m k p v0 v r T M I0 L E. destruct T as [[H Hr]|[W H]]; [unfold content in I0; rewrite H in I0; destruct I0|].
    destruct (write_at_spec p (t_root t) k v0 v W L) as (r' & l1 & l2 & E' & W' & E1 & E2 & _). assert (r' = r) by congruence. subst r'.
    assert (T' : twf (mkt r (t_weight t))). { right. cbn [t_root t_weight]. split; [auto|]. rewrite H, E1, E2, !zlen_app, !zlen_cons. reflexivity. }
    split; [exact T'|]. intros x w. pose proof (content_sorted _ T') as S. assert (C' : content (mkt r (t_weight t)) = elems r). { apply (content_wf (mkt r (t_weight t))); [exact W'|]. cbn [t_root t_weight]. rewrite H, E1, E2, !zlen_app, !zlen_cons. reflexivity. } rewrite C' in *. rewrite content_wf in I0 by auto.
    assert (M' : forall x w, In (x, w) (elems (t_root t)) <-> m x = Some w) by (intros; rewrite <- M, content_wf by auto; tauto). clear M. rewrite E1 in M'. rewrite E2 in *.
    unfold kset. destruct (key_eq_dec x k) as [->|N].
    - split; [|intros X; inversion X; apply in_app_iff; right; left; auto]. intros Hx. f_equal. eapply sorted_fun; [exact S| |exact Hx]. apply in_app_iff. right. left. auto.
    - rewrite <- M'. rewrite !in_app_iff. cbn. split; intros [Hx|[Hx|Hx]]; auto; inversion Hx; congruence.
Qed.
Lemma kv_get_ins : forall t m a k t' p, twf t -> (forall x w, In (x, w) (content t) <-> m x = Some w) -> key_ok k -> trie_get_ins a t k = Ok (t', Some p) ->
     twf t' /\ exists v, leaf_at (t_root t') p = Some (k, v) /\ In (k, v) (content t') /\ v = match m k with Some v => v | None => 0 end /\
     forall x w, In (x, w) (content t') <-> kset m k (Some v) x = Some w.
Proof.
  intros t m a k t' p T M K E. destruct (get_ins_spec a t k T K) as [(p' & t1 & v & E' & T' & L & D)|[E' _]]; [|congruence]. rewrite E in E'. inversion E'; subst t1 p'. split; [auto|]. exists v. split; [auto|]. destruct D as [[-> I0]|[-> (l1 & l2 & E1 & E2)]].
    - split; [auto|]. split; [apply M in I0; rewrite I0; auto|]. intros x w. unfold kset. destruct (key_eq_dec x k) as [->|N]; [|apply M]. apply M in I0. rewrite M. rewrite I0. tauto.
    - split; [rewrite E2; apply in_app_iff; right; left; auto|].
      assert (m k = None). { destruct (m k) as [w|] eqn:Em; [|auto]. exfalso. apply M in Em. rewrite E1 in Em. pose proof (content_sorted _ T') as S. rewrite E2 in S. apply in_app_iff in Em. apply sorted_app_inv in S. destruct S as (S1 & S2 & S3).
        destruct Em as [Em|Em]. - specialize (S3 _ (k, 0) Em (or_introl eq_refl)). unfold kvlt in S3. cbn in S3. apply klt_irrefl in S3. auto. - inversion S2; subst. rewrite Forall_forall in H2. specialize (H2 _ Em). unfold kvlt in H2. cbn in H2. apply klt_irrefl in H2. auto. }
      rewrite H. split; [auto|]. rewrite E2. apply kv_ins; [intros; rewrite <- E1; auto|]. rewrite <- E2. apply content_sorted; auto.
Qed.
Lemma kv_del : forall t t' (m : kmap) k v l1 l2, twf t -> (forall x w, In (x, w) (content t) <-> m x = Some w) -> content t = l1 ++ (k, v) :: l2 -> content t' = l1 ++ l2 ->
  m k = Some v /\ forall x w, In (x, w) (content t') <-> kset m k None x = Some w.
Proof.
  intros t t' m k v l1 l2 T M E1 E2. split; [apply M; rewrite E1; apply in_app_iff; right; left; auto|]. intros x w. rewrite E2. unfold kset. pose proof (content_sorted _ T) as S. rewrite E1 in *. apply sorted_app_inv in S. destruct S as (S1 & S2 & S3).
  destruct (key_eq_dec x k) as [->|N].
  + split; [|discriminate]. intros Hx. exfalso. apply in_app_iff in Hx. destruct Hx as [Hx|Hx]; [specialize (S3 _ (k, v) Hx (or_introl eq_refl)); unfold kvlt in S3; cbn in S3; apply klt_irrefl in S3; auto|].
      inversion S2 as [|? ? _ F]; subst. rewrite Forall_forall in F. specialize (F _ Hx). unfold kvlt in F. cbn in F. apply klt_irrefl in F. auto.
  + rewrite <- M. rewrite !in_app_iff. cbn. split; [intros [?|?]; auto|intros [?|[X|?]]; auto; inversion X; congruence].
Qed.
