From Verif Require Import Base SerialModel SerialSpec SerialProofs SerialProps JournalModel JournalSpec.

(** * Transactions *)
Definition alive (t : txn) : Prop := t_ret t = KNOT_EOK /\ t_open t = true /\ t_bad t = false.
Definition hdead (L : list db) (t : txn) : Prop := (t_open t = false \/ t_bad t = true) /\ t_log t = L.
Definition env (F : Prop) (t : txn) : Prop :=
  ~ In FMem (t_fl t) /\ (t_fl t <> [] \/ t_rd t <> [] -> F).

Lemma enter_hdead : forall L t, hdead L t -> exists t', enter t = (false, t') /\ hdead L t'.
Proof.
  intros L t [H HL]. unfold enter.
  destruct (t_ret t =? KNOT_EOK) eqn:E; cbn [negb].
  - destruct (t_open t) eqn:E2; cbn [negb].
    + destruct H as [H|H]; [discriminate|]. rewrite H. eexists. split; [reflexivity|].
      split; [right|]; cbn [set_ret t_bad t_log]; auto.
    + eexists. split; [reflexivity|]. split; [left|]; cbn [set_ret t_open t_log]; auto.
  - eexists. split; [reflexivity|]. split; [left|]; cbn [set_open t_open t_log]; auto.
Qed.
Lemma enter_dead : forall t, t_ret t <> KNOT_EOK -> exists t', enter t = (false, t') /\ hdead (t_log t) t' /\ t_ret t' = t_ret t.
Proof.
  intros t H. unfold enter. destruct (t_ret t =? KNOT_EOK) eqn:E; [apply Z.eqb_eq in E; contradiction|].
  cbn [negb]. eexists. split; [reflexivity|]. split; [split; [left|]|]; reflexivity.
Qed.
Lemma enter_alive : forall F t, alive t -> env F t ->
  (exists fl, enter t = (true, set_fl t fl) /\ alive (set_fl t fl) /\ env F (set_fl t fl)) \/
  (F /\ exists t', enter t = (false, t') /\ hdead (t_log t) t').
Proof.
  intros F t (H1 & H2 & H3) (N & HF). unfold enter. rewrite H1, H2, H3. rewrite Z.eqb_refl. cbn [negb].
  destruct (t_fl t) as [|f r] eqn:E.
  - left. exists []. destruct t as [b d l re op ba fl rd]; cbn [t_fl t_ret t_open t_bad t_rd] in *. subst.
    split; [reflexivity|]. split; [repeat split|]. split; auto.
  - assert (F) by (apply HF; left; discriminate).
    destruct f.
    + left. exists r. split; [reflexivity|]. split; [repeat split; auto|].
      split; [intros I; apply N; right; exact I|auto].
    + exfalso. apply N. left. reflexivity.
    + right. split; [assumption|]. eexists. split; [reflexivity|]. split; [right|]; reflexivity.
Qed.

(** ** Nothing happens in a dead transaction *)
Section Dead.
Lemma store_hdead : forall L t m, hdead L t -> hdead L (store_md t m).
Proof. intros L t m H. unfold store_md. destruct (enter_hdead L t H) as (t' & E & H'). rewrite E. exact H'. Qed.
Lemma commit_hdead : forall L t, hdead L t -> hdead L (commit t) /\ t_ret (commit t) <> KNOT_EOK.
Proof.
  intros L t H. unfold commit. destruct (enter_hdead L t H) as (t' & E & H'). rewrite E. split; [exact H'|].
  revert E. unfold enter. destruct (t_ret t =? KNOT_EOK) eqn:E1; cbn [negb].
  - destruct (t_open t) eqn:E2; cbn [negb].
    + destruct (t_bad t) eqn:E3; [intros [= <-]; cbn [set_ret t_ret]; discriminate|].
      destruct H as [[H|H] _]; congruence.
    + intros [= <-]; cbn [set_ret t_ret]; discriminate.
  - intros [= <-]. cbn [set_open t_ret]. apply Z.eqb_neq. exact E1.
Qed.
Lemma write_ch_hdead : forall L t k s, hdead L t -> hdead L (write_ch t k s).
Proof. intros L t k s H. unfold write_ch. destruct (enter_hdead L t H) as (t' & E & H'). rewrite E. exact H'. Qed.
Lemma write_zij_hdead : forall L t z, hdead L t -> hdead L (write_zij t z).
Proof. intros L t z H. unfold write_zij. destruct (enter_hdead L t H) as (t' & E & H'). rewrite E. exact H'. Qed.
Lemma del_zone_hdead : forall L t, hdead L t -> hdead L (del_zone t).
Proof. intros L t H. unfold del_zone. destruct (enter_hdead L t H) as (t' & E & H'). rewrite E. exact H'. Qed.
Lemma uli_hdead : forall L t, hdead L t -> hdead L (update_last_inserter t).
Proof. intros L t H. unfold update_last_inserter. destruct (enter_hdead L t H) as (t' & E & H'). rewrite E. exact H'. Qed.
Lemma serial_zij_hdead : forall L t, hdead L t -> exists t', serial_to_zij t = (t', None) /\ hdead L t'.
Proof. intros L t H. unfold serial_to_zij. destruct (enter_hdead L t H) as (t' & E & H'). rewrite E. eauto. Qed.
Lemma contains_zij_hdead : forall L t, hdead L t -> exists t', contains_zij t = (t', false) /\ hdead L t'.
Proof.
  intros L t H. unfold contains_zij. destruct (serial_zij_hdead L t H) as (t' & E & H'). rewrite E. eauto.
Qed.
Lemma contains_ch_hdead : forall L t k, hdead L t -> exists t', contains_ch t k = (t', false) /\ hdead L t'.
Proof. intros L t k H. unfold contains_ch. destruct (enter_hdead L t H) as (t' & E & H'). rewrite E. eauto. Qed.
Lemma delete_ch_hdead : forall L t k, hdead L t -> exists t', delete_ch t k = (t', 0, None) /\ hdead L t'.
Proof. intros L t k H. unfold delete_ch. destruct (enter_hdead L t H) as (t' & E & H'). rewrite E. cbn [negb]. eauto. Qed.
Lemma delete_zij_hdead : forall L t, hdead L t -> exists t', delete_zij t = (t', 0, None) /\ hdead L t'.
Proof. intros L t H. unfold delete_zij. destruct (enter_hdead L t H) as (t' & E & H'). rewrite E. cbn [negb]. eauto. Qed.
Lemma delete_loop_hdead : forall L fuel t from a b stop fs fc t' x y z, hdead L t ->
  delete_loop fuel t from a b stop fs fc = Ok (t', x, y, z) -> hdead L t'.
Proof.
  intros L fuel. destruct fuel as [|fuel]; intros t from a b stop fs fc t' x y z H; cbn [delete_loop]; [discriminate|].
  destruct (negb (from =? stop) && _); [|intros [= <- <- <- <-]; exact H].
  destruct (delete_ch_hdead L t from H) as (t1 & E & H1). rewrite E. cbn [Z.gtb Z.compare].
  intros [= <- <- <- <-]. exact H1.
Qed.
Lemma set_ret_hdead : forall L t r, hdead L t -> hdead L (set_ret t r).
Proof. intros L t r H. exact H. Qed.
Lemma set_rd_hdead : forall L t r, hdead L t -> hdead L (set_rd t r).
Proof. intros L t r H. exact H. Qed.
Lemma merge_zij_hdead : forall L t ms t' o, hdead L t -> merge_zij t ms = Ok (t', o) -> hdead L t'.
Proof.
  intros L t ms t' o H. unfold merge_zij. cbv zeta. set (rd := match t_rd t with [] => 0 | x :: _ => x end).
  destruct (rd =? 1); [intros [= <- <-]; exact H|].
  destruct (read_zone _) as [[[z l] e]|e| |]; try discriminate; [|intros [= <- <-]; exact H].
  destruct ((rd =? 2) || negb (s_ok (z_st z))); [discriminate|].
  set (t1 := set_ret (set_rd t (tl (t_rd t))) (if rd =? 3 then KNOT_ENOMEM else e)).
  assert (H1 : hdead L t1) by exact H.
  destruct (delete_zij_hdead L t1 H1) as (t2 & E2 & H2). rewrite E2.
  destruct (_ && _); [discriminate|]. intros [= <- <-]. apply write_zij_hdead. exact H2.
Qed.
Lemma merge_ch_hdead : forall L t k ms t' o, hdead L t -> merge_ch t k ms = Ok (t', o) -> hdead L t'.
Proof.
  intros L t k ms t' o H. unfold merge_ch. cbv zeta. set (rd := match t_rd t with [] => 0 | x :: _ => x end).
  destruct (rd =? 1); [intros [= <- <-]; exact H|].
  destruct (read_from _ _) as [[[|s l] e]|e| |]; try discriminate; [|intros [= <- <-]; exact H].
  destruct (rd =? 2); [discriminate|].
  set (t1 := set_ret (set_rd t (tl (t_rd t))) (if rd =? 3 then KNOT_ENOMEM else e)).
  assert (H1 : hdead L t1) by exact H.
  destruct (delete_ch_hdead L t1 k H1) as (t2 & E2 & H2). rewrite E2.
  destruct (_ && _); [discriminate|]. intros [= <- <-]. apply write_ch_hdead. exact H2.
Qed.
Lemma flush_end_hdead : forall L t m t' m', hdead L t ->
  (let '(t, m) := if m_mv m then (fst (fst (delete_ch t (m_merged m))), mkmd (m_first m) (m_to m) (m_flushed m) (m_merged m) (m_count m) (m_tov m) false) else (t, m) in
   let t := commit (store_md t m) in
   Ok (if t_ret t =? KNOT_EOK then set_ret t KNOT_EBUSY else t, m)) = Ok (t', m') -> hdead L t'.
Proof.
  intros L t m t' m' H.
  assert (HH : exists t1 m1, (if m_mv m then (fst (fst (delete_ch t (m_merged m))), mkmd (m_first m) (m_to m) (m_flushed m) (m_merged m) (m_count m) (m_tov m) false) else (t, m)) = (t1, m1) /\ hdead L t1).
  { destruct (m_mv m).
    - destruct (delete_ch_hdead L t (m_merged m) H) as (t1 & E & H1). rewrite E. eauto.
    - eauto. }
  destruct HH as (t1 & m1 & E & H1). rewrite E. cbv zeta. intros [= <- <-].
  destruct (commit_hdead L _ (store_hdead L t1 m1 H1)) as [A B].
  destruct (t_ret _ =? KNOT_EOK); exact A.
Qed.
Lemma try_flush_dead : forall t m fl ms t' m', t_ret t <> KNOT_EOK \/ hdead (t_log t) t ->
  try_flush t m fl ms = Ok (t', m') -> hdead (t_log t) t'.
Proof.
  intros t m fl ms t' m' H. unfold try_flush.
  assert (HH : exists t1, contains_zij t = (t1, false) /\ hdead (t_log t) t1).
  { destruct H as [H|H].
    - unfold contains_zij, serial_to_zij. destruct (enter_dead t H) as (t1 & E & H1 & _). rewrite E. eauto.
    - apply contains_zij_hdead. exact H. }
  destruct HH as (t1 & E & H1). rewrite E. destruct fl.
  - cbn [rbind negb]. apply flush_end_hdead. exact H1.
  - cbn [negb]. destruct (merge_ch t1 _ ms) as [[t2 o]|e| |] eqn:EM; cbn [rbind]; try discriminate.
    destruct (after_merge _ _ _ _ _) as [m2|e| |]; cbn [rbind]; try discriminate. intros [= <- <-].
    eapply merge_ch_hdead; [exact H1|exact EM].
Qed.
Lemma fix_loop_hdead : forall L fuel t m fl ms a b t' m', hdead L t ->
  fix_loop fuel t m fl ms a b = Ok (t', m') -> hdead L t'.
Proof.
  intros L fuel. induction fuel as [|fuel IH]; intros t m fl ms a b t' m' H; cbn [fix_loop];
    (destruct (negb _); [intros [= <- <-]; exact H|]); [discriminate|].
  destruct (serial_zij_hdead L t H) as (t1 & E & H1). rewrite E.
  unfold journal_delete. destruct (delete_loop _ _ _ _ _ _ _ _) as [[[[t2 x] y] z]|e| |] eqn:ED; cbn [rbind]; try discriminate.
  assert (H2 := delete_loop_hdead _ _ _ _ _ _ _ _ _ _ _ _ _ H1 ED).
  destruct (x =? 0).
  - destruct (negb _).
    + destruct (try_flush t2 m fl ms) as [[t3 m3]|e| |] eqn:ET; cbn [rbind]; try discriminate.
      apply IH. replace L with (t_log t2) in * by apply H2. eapply try_flush_dead; [right; exact H2|exact ET].
    + intros [= <- <-]. exact H2.
  - destruct (after_delete m z y) as [m3|e| |]; cbn [rbind]; try discriminate. apply IH. exact H2.
Qed.
End Dead.

(** A transaction which failed, even if it hasn't been aborted yet *)
Definition dead (L : list db) (t : txn) : Prop := hdead L t \/ (t_ret t <> KNOT_EOK /\ t_log t = L).
Lemma enter_dead' : forall L t, dead L t -> exists t', enter t = (false, t') /\ hdead L t'.
Proof.
  intros L t [H|[H <-]]; [apply enter_hdead; exact H|].
  destruct (enter_dead t H) as (t' & E & H' & _). eauto.
Qed.
Lemma store_dead : forall L t m, dead L t -> hdead L (store_md t m).
Proof. intros L t m H. unfold store_md. destruct (enter_dead' L t H) as (t' & E & H'). rewrite E. exact H'. Qed.
Lemma write_ch_dead : forall L t k s, dead L t -> hdead L (write_ch t k s).
Proof. intros L t k s H. unfold write_ch. destruct (enter_dead' L t H) as (t' & E & H'). rewrite E. exact H'. Qed.
Lemma del_zone_dead : forall L t, dead L t -> hdead L (del_zone t).
Proof. intros L t H. unfold del_zone. destruct (enter_dead' L t H) as (t' & E & H'). rewrite E. exact H'. Qed.
Lemma contains_zij_dead : forall L t, dead L t -> exists t', contains_zij t = (t', false) /\ hdead L t'.
Proof. intros L t H. unfold contains_zij, serial_to_zij. destruct (enter_dead' L t H) as (t' & E & H'). rewrite E. eauto. Qed.
Lemma contains_ch_dead : forall L t k, dead L t -> exists t', contains_ch t k = (t', false) /\ hdead L t'.
Proof. intros L t k H. unfold contains_ch. destruct (enter_dead' L t H) as (t' & E & H'). rewrite E. eauto. Qed.
Lemma delete_ch_dead : forall L t k, dead L t -> exists t', delete_ch t k = (t', 0, None) /\ hdead L t'.
Proof. intros L t k H. unfold delete_ch. destruct (enter_dead' L t H) as (t' & E & H'). rewrite E. cbn [negb]. eauto. Qed.
Lemma fix_loop_dead : forall L fuel t m fl ms a b t' m', dead L t ->
  fix_loop fuel t m fl ms a b = Ok (t', m') -> dead L t'.
Proof.
  intros L fuel t m fl ms a b t' m' [H|[H HL]] E.
  - left. eapply fix_loop_hdead; eassumption.
  - right. destruct fuel; cbn [fix_loop] in E; (replace (t_ret t =? KNOT_EOK) with false in E by lia);
      rewrite andb_false_r in E; cbn [negb] in E; injection E as <- <-; auto.
Qed.

(** * Outcomes: an operation ends as described, or a fault has occurred and nothing is going to be committed. *)
Definition W (F : Prop) (L : list db) {A} (tx : A -> txn) (r : res A) (P : A -> Prop) : Prop :=
  (exists x, r = Ok x /\ P x) \/ (F /\ forall x, r = Ok x -> dead L (tx x)).
Lemma W_ok : forall F L A (tx : A -> txn) x (P : A -> Prop), P x -> W F L tx (Ok x) P.
Proof. intros. left. eauto. Qed.
Lemma W_bind : forall F L A B (txa : A -> txn) (txb : B -> txn) r (f : A -> res B) P Q,
  W F L txa r P -> (forall x, P x -> W F L txb (f x) Q) ->
  (forall x y, dead L (txa x) -> f x = Ok y -> dead L (txb y)) ->
  W F L txb (rbind r f) Q.
Proof.
  intros F L A B txa txb r f P Q [(x & -> & HP)|[HF HD]] H1 H2.
  - cbn [rbind]. apply H1. exact HP.
  - right. split; [exact HF|]. intros y. destruct r as [x|e| |]; cbn [rbind]; try discriminate.
    intros E. eapply H2; [|exact E]. apply HD. reflexivity.
Qed.
