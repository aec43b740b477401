(** Proofs about signing: threads and the whole zone. *)
From Verif Require Import Base SerialModel KeyModel SignModel SignSpec SignProofs SignProofs2 SignProofs3.

Definition signed_node (c : sctx) (keys : list skey) (nd nd' : node) : Prop :=
  (node_empty nd = true /\ nd' = nd) \/ (node_empty nd = false /\ exists x, sign_node_rrsets c keys nd = Ok x /\ nd' = apply_node nd x).

(** The zone when the threads of [P] are done *)
Fixpoint state (c : sctx) (keys : list skey) (threads : Z) (P : Z -> bool) (nds : list node) (index : Z) (cur : list node) : Prop :=
  match nds, cur with
  | [], [] => True
  | nd :: nds, d :: cur =>
    if node_empty nd then d = nd /\ state c keys threads P nds index cur
    else (if P (index mod threads) then exists x, sign_node_rrsets c keys nd = Ok x /\ d = apply_node nd x else d = nd) /\
         state c keys threads P nds (index + 1) cur
  | _, _ => False
  end.
Lemma state_start : forall c keys threads nds index, state c keys threads (fun _ => false) nds index nds.
Proof. intros c keys threads. induction nds as [|nd nds IH]; intros index; cbn [state]; auto. destruct (node_empty nd); split; auto. Qed.
Lemma state_ext : forall c keys threads P Q, 0 < threads -> (forall i, 0 <= i < threads -> P i = Q i) ->
  forall nds index cur, state c keys threads P nds index cur -> state c keys threads Q nds index cur.
Proof.
  intros c keys threads P Q Ht E. induction nds as [|nd nds IH]; intros index [|d cur] H; cbn [state] in *; auto.
  destruct (node_empty nd); destruct H as (A & B); split; auto. rewrite <- (E (index mod threads)); [exact A|]. apply Z.mod_pos_bound. lia.
Qed.
Lemma state_thread : forall c keys threads P i, P i = false -> forall nds index cur xs,
  state c keys threads P nds index cur -> tree_sign_thread c keys i threads nds index = Ok xs ->
  state c keys threads (fun j => (j =? i) || P j) nds index (apply_thread cur xs).
Proof.
  intros c keys threads P i Hi. induction nds as [|nd nds IH]; intros index [|d cur] xs H Hx; cbn [state] in H; try contradiction.
  - cbn [tree_sign_thread] in Hx. injection Hx as <-. exact I.
  - cbn [tree_sign_thread] in Hx. destruct (node_empty nd) eqn:En.
    + destruct (tree_sign_thread c keys i threads nds index) as [l|?| |] eqn:El; cbn [rbind] in Hx; try discriminate. injection Hx as <-.
      cbn [apply_thread state]. rewrite En. destruct H as (A & B). split; [exact A|]. eapply IH; eauto.
    + destruct H as (A & B). destruct (index mod threads =? i) eqn:Ei; cbn [negb] in Hx.
      * destruct (sign_node_rrsets c keys nd) as [x|?| |] eqn:Ex; cbn [rbind] in Hx; try discriminate.
        destruct (tree_sign_thread c keys i threads nds (index + 1)) as [l|?| |] eqn:El; cbn [rbind] in Hx; try discriminate. injection Hx as <-.
        cbn [apply_thread state]. rewrite En, Ei. cbn [orb]. apply Z.eqb_eq in Ei. rewrite Ei, Hi in A. subst d.
        split; [eauto|]. eapply IH; eauto.
      * destruct (tree_sign_thread c keys i threads nds (index + 1)) as [l|?| |] eqn:El; cbn [rbind] in Hx; try discriminate. injection Hx as <-.
        cbn [apply_thread state]. rewrite En, Ei. cbn [orb]. split; [exact A|]. eapply IH; eauto.
Qed.
Lemma state_end : forall c keys threads P, 0 < threads -> (forall i, 0 <= i < threads -> P i = true) -> forall nds index cur,
  state c keys threads P nds index cur -> Forall2 (signed_node c keys) nds cur.
Proof.
  intros c keys threads P Ht HP. induction nds as [|nd nds IH]; intros index [|d cur] H; cbn [state] in H; try contradiction; [constructor|].
  destruct (node_empty nd) eqn:En; destruct H as (A & B); constructor; eauto.
  - left. auto.
  - right. rewrite HP in A; [auto|]. apply Z.mod_pos_bound. lia.
Qed.
Lemma collect_state : forall c keys start threads nds ids P cur e nds' e', NoDup ids -> (forall i, In i ids -> P i = false) ->
  state c keys threads P nds 0 cur -> collect_threads c keys start threads nds ids cur e = Ok (nds', e') ->
  state c keys threads (fun j => existsb (Z.eqb j) ids || P j) nds 0 nds'.
Proof.
  intros c keys start threads nds. induction ids as [|i ids IH]; intros P cur e nds' e' Hd HP Hs H; cbn [collect_threads] in H.
  - injection H as <- <-. cbn [existsb orb]. exact Hs.
  - destruct (start i =? 0); cbn [negb] in H; [|discriminate].
    destruct (tree_sign_thread c keys i threads nds 0) as [xs|?| |] eqn:Ex; cbn [rbind] in H; try discriminate.
    inversion Hd as [|a l N D]; subst.
    pose proof (state_thread c keys threads P i (HP i (or_introl eq_refl)) nds 0 cur xs Hs Ex) as S1.
    eapply IH in H; [|exact D| |exact S1].
    + assert (X : forall nds index cur Q R, (forall j, Q j = R j) -> state c keys threads Q nds index cur -> state c keys threads R nds index cur).
      { clear. induction nds as [|nd nds IH]; intros index [|d cur] Q R E H; cbn [state] in *; auto.
        destruct (node_empty nd); destruct H as (A & B); split; eauto. rewrite <- E. exact A. }
      eapply X; [|exact H]. intros j. cbn [existsb]. destruct (j =? i), (existsb (Z.eqb j) ids), (P j); reflexivity.
    + intros j Hj. cbn beta. rewrite (HP j (or_intror Hj)), orb_false_r. apply Z.eqb_neq. intros ->. contradiction.
Qed.
Definition ids (threads : Z) : list Z := map Z.of_nat (seq 0 (Z.to_nat threads)).
Lemma ids_nodup : forall n, NoDup (ids n).
Proof. intros n. unfold ids. apply FinFun.Injective_map_NoDup; [intros a b E; lia|apply seq_NoDup]. Qed.
Lemma ids_in : forall n i, In i (ids n) <-> 0 <= i < n.
Proof.
  intros n i. unfold ids. rewrite in_map_iff. split.
  - intros (m & <- & H). apply in_seq in H. lia.
  - intros H. exists (Z.to_nat i). split; [lia|]. apply in_seq. lia.
Qed.
Lemma tree_signed : forall c keys start threads nds nds' e, 0 < threads ->
  zone_tree_sign c keys start threads nds = Ok (nds', e) -> Forall2 (signed_node c keys) nds nds'.
Proof.
  intros c keys start threads nds nds' e Ht H. unfold zone_tree_sign in H.
  eapply collect_state in H; [|apply ids_nodup|reflexivity|apply state_start].
  eapply state_end; [exact Ht| |exact H]. intros i Hi. cbn beta. rewrite orb_false_r. apply existsb_exists. exists i. split; [apply ids_in; exact Hi|apply Z.eqb_refl].
Qed.

(** The earliest expiration *)
Lemma thread_expire_keeps : forall xs e t, time64 e -> (forall x, In (Some x) xs -> time64 (ch_expire x)) -> lower e t -> lower (thread_expire xs e) t /\ time64 (thread_expire xs e).
Proof.
  unfold thread_expire. induction xs as [|o xs IH]; intros e t He Hx Hl; cbn [fold_left]; [auto|]. destruct o as [x|].
  - apply IH; [apply min_time64; auto; apply Hx; left; reflexivity|intros; apply Hx; right; assumption|]. apply min_lower_l; auto. apply Hx. left. reflexivity.
  - apply IH; auto. intros; apply Hx; right; assumption.
Qed.
Lemma thread_expire64 : forall xs e, time64 e -> (forall x, In (Some x) xs -> time64 (ch_expire x)) -> time64 (thread_expire xs e).
Proof.
  unfold thread_expire. induction xs as [|o xs IH]; intros e He Hx; cbn [fold_left]; [auto|]. destruct o as [x|].
  - apply IH; [apply min_time64; auto; apply Hx; left; reflexivity|intros; apply Hx; right; assumption].
  - apply IH; auto. intros; apply Hx; right; assumption.
Qed.
Lemma thread_expire_lower : forall xs e x t, time64 e -> (forall x, In (Some x) xs -> time64 (ch_expire x)) -> In (Some x) xs -> lower (ch_expire x) t -> lower (thread_expire xs e) t.
Proof.
  unfold thread_expire. induction xs as [|o xs IH]; intros e x t He Hx Hin Hl; cbn [fold_left]; [destruct Hin|]. destruct Hin as [->|Hin].
  - apply (proj1 (thread_expire_keeps xs (knot_time_min e (ch_expire x)) t
      ltac:(apply min_time64; auto; apply Hx; left; reflexivity) ltac:(intros; apply Hx; right; assumption)
      ltac:(apply min_lower_r; auto; apply Hx; left; reflexivity))).
  - destruct o as [y|].
    + apply (IH _ x t); [apply min_time64; [exact He|apply Hx; left; reflexivity]|intros z Hz; apply Hx; right; exact Hz|exact Hin|exact Hl].
    + apply (IH _ x t); [exact He|intros z Hz; apply Hx; right; exact Hz|exact Hin|exact Hl].
Qed.
Lemma thread_in : forall c keys i threads nds index xs x, tree_sign_thread c keys i threads nds index = Ok xs -> In (Some x) xs ->
  exists nd, In nd nds /\ sign_node_rrsets c keys nd = Ok x.
Proof.
  intros c keys i threads. induction nds as [|nd nds IH]; intros index xs x H Hin; cbn [tree_sign_thread] in H.
  - injection H as <-. destruct Hin.
  - destruct (node_empty nd); [|destruct (negb _)].
    + destruct (tree_sign_thread c keys i threads nds index) as [l|?| |] eqn:El; cbn [rbind] in H; try discriminate. injection H as <-.
      destruct Hin as [Hin|Hin]; [discriminate|]. destruct (IH _ _ _ El Hin) as (n & A & B). exists n. split; [right; exact A|exact B].
    + destruct (tree_sign_thread c keys i threads nds (index + 1)) as [l|?| |] eqn:El; cbn [rbind] in H; try discriminate. injection H as <-.
      destruct Hin as [Hin|Hin]; [discriminate|]. destruct (IH _ _ _ El Hin) as (n & A & B). exists n. split; [right; exact A|exact B].
    + destruct (sign_node_rrsets c keys nd) as [y|?| |] eqn:Ey; cbn [rbind] in H; try discriminate.
      destruct (tree_sign_thread c keys i threads nds (index + 1)) as [l|?| |] eqn:El; cbn [rbind] in H; try discriminate. injection H as <-.
      destruct Hin as [Hin|Hin]; [injection Hin as ->; exists nd; split; [left; reflexivity|exact Ey]|].
      destruct (IH _ _ _ El Hin) as (n & A & B). exists n. split; [right; exact A|exact B].
Qed.
(** A node that is not empty is taken by its thread *)
Lemma thread_takes : forall c keys threads nd, 0 < threads -> node_empty nd = false -> forall nds index, In nd nds ->
  exists i, 0 <= i < threads /\ forall xs, tree_sign_thread c keys i threads nds index = Ok xs -> exists x, In (Some x) xs /\ sign_node_rrsets c keys nd = Ok x.
Proof.
  intros c keys threads nd Ht En. induction nds as [|n nds IH]; intros index Hin; [destruct Hin|]. destruct Hin as [->|Hin].
  - exists (index mod threads). split; [apply Z.mod_pos_bound; lia|]. intros xs H. cbn [tree_sign_thread] in H. rewrite En, Z.eqb_refl in H. cbn [negb] in H.
    destruct (sign_node_rrsets c keys nd) as [y|?| |] eqn:Ey; cbn [rbind] in H; try discriminate.
    destruct (tree_sign_thread c keys _ threads nds (index + 1)) as [l|?| |] eqn:El; cbn [rbind] in H; try discriminate. injection H as <-.
    exists y. split; [left; reflexivity|reflexivity].
  - destruct (node_empty n) eqn:E.
    + destruct (IH index Hin) as (i & Hi & X). exists i. split; [exact Hi|]. intros xs H. cbn [tree_sign_thread] in H. rewrite E in H.
      destruct (tree_sign_thread c keys i threads nds index) as [l|?| |] eqn:El; cbn [rbind] in H; try discriminate. injection H as <-.
      destruct (X l eq_refl) as (x & A & B). exists x. split; [right; exact A|exact B].
    + destruct (IH (index + 1) Hin) as (i & Hi & X). exists i. split; [exact Hi|]. intros xs H. cbn [tree_sign_thread] in H. rewrite E in H.
      destruct (negb _).
      * destruct (tree_sign_thread c keys i threads nds (index + 1)) as [l|?| |] eqn:El; cbn [rbind] in H; try discriminate. injection H as <-.
        destruct (X l eq_refl) as (x & A & B). exists x. split; [right; exact A|exact B].
      * destruct (sign_node_rrsets c keys n) as [y|?| |] eqn:Ey; cbn [rbind] in H; try discriminate.
        destruct (tree_sign_thread c keys i threads nds (index + 1)) as [l|?| |] eqn:El; cbn [rbind] in H; try discriminate. injection H as <-.
        destruct (X l eq_refl) as (x & A & B). exists x. split; [right; exact A|exact B].
Qed.
Lemma collect_expire : forall c keys start threads nds is cur e nds' e', (forall nd x, In nd nds -> sign_node_rrsets c keys nd = Ok x -> time64 (ch_expire x)) -> time64 e ->
  collect_threads c keys start threads nds is cur e = Ok (nds', e') ->
  time64 e' /\ (forall t, lower e t -> lower e' t) /\
  (forall i, In i is -> exists xs, tree_sign_thread c keys i threads nds 0 = Ok xs /\ forall x t, In (Some x) xs -> lower (ch_expire x) t -> lower e' t).
Proof.
  intros c keys start threads nds. induction is as [|i is IH]; intros cur e nds' e' Hall He H; cbn [collect_threads] in H.
  - injection H as <- <-. split; [exact He|]. split; [auto|]. intros i [].
  - destruct (start i =? 0); cbn [negb] in H; [|discriminate].
    destruct (tree_sign_thread c keys i threads nds 0) as [xs|?| |] eqn:Ex; cbn [rbind] in H; try discriminate.
    assert (Hx : forall x, In (Some x) xs -> time64 (ch_expire x)).
    { intros x Hin. destruct (thread_in _ _ _ _ _ _ _ _ Ex Hin) as (nd & A & B). eapply Hall; eauto. }
    destruct (IH _ _ _ _ Hall (thread_expire64 xs e He Hx) H) as (A & B & C). split; [exact A|]. split.
    + intros t Ht. apply B. apply thread_expire_keeps; auto.
    + intros j [<-|Hj]; [|auto]. exists xs. split; [exact Ex|]. intros x t Hin Hl. apply B. eapply thread_expire_lower; eauto.
Qed.
Lemma tree_expire : forall c keys start threads nds nds' e, 0 < threads ->
  (forall nd, In nd nds -> node_ok nd) ->
  zone_tree_sign c keys start threads nds = Ok (nds', e) ->
  time64 e /\ forall nd x t, In nd nds -> node_empty nd = false -> sign_node_rrsets c keys nd = Ok x -> lower (ch_expire x) t -> lower e t.
Proof.
  intros c keys start threads nds nds' e Ht Ho H. unfold zone_tree_sign in H.
  apply collect_expire in H; [| |cbv; split; [discriminate|reflexivity]].
  2: { intros nd x Hin Hx. eapply after_iff; eauto. }
  destruct H as (A & B & C). split; [exact A|]. intros nd x t Hin En Hx Hl.
  destruct (thread_takes c keys threads nd Ht En nds 0 Hin) as (i & Hi & X).
  destruct (C i) as (xs & E & Y); [apply ids_in; exact Hi|]. destruct (X xs E) as (x' & P & Q). rewrite Hx in Q. injection Q as <-. eapply Y; eauto.
Qed.

(** The number of threads does not matter *)
Lemma thread_total : forall c keys i threads nds index, (forall nd, In nd nds -> node_empty nd = false -> exists x, sign_node_rrsets c keys nd = Ok x) ->
  exists xs, tree_sign_thread c keys i threads nds index = Ok xs.
Proof.
  intros c keys i threads. induction nds as [|nd nds IH]; intros index H; cbn [tree_sign_thread]; [eauto|].
  assert (K : forall nd, In nd nds -> node_empty nd = false -> exists x, sign_node_rrsets c keys nd = Ok x) by (intros; apply H; auto; right; assumption).
  destruct (node_empty nd) eqn:En; [destruct (IH index K) as (l & ->); cbn [rbind]; eauto|].
  destruct (IH (index + 1) K) as (l & ->). destruct (negb _); [cbn [rbind]; eauto|].
  destruct (H nd (or_introl eq_refl) En) as (x & ->). cbn [rbind]. eauto.
Qed.
Lemma tree_total : forall c keys threads nds, (forall nd, In nd nds -> node_empty nd = false -> exists x, sign_node_rrsets c keys nd = Ok x) ->
  exists nds' e, zone_tree_sign c keys (fun _ => 0) threads nds = Ok (nds', e).
Proof.
  intros c keys threads nds H. unfold zone_tree_sign.
  enough (G : forall ids cur e, exists nds' e', collect_threads c keys (fun _ => 0) threads nds ids cur e = Ok (nds', e')) by apply G.
  induction ids0 as [|i ids0 IH]; intros cur e; cbn [collect_threads]; [eauto|].
  destruct (thread_total c keys i threads nds 0 H) as (xs & ->). cbn [rbind negb Z.eqb]. apply IH.
Qed.
Lemma signed_fun : forall c keys nds a b, Forall2 (signed_node c keys) nds a -> Forall2 (signed_node c keys) nds b -> a = b.
Proof.
  intros c keys nds a b Ha. revert b. induction Ha as [|n d nds a H Ha IH]; intros b Hb; inversion Hb as [|n' d' nds' b' H' Hb']; subst; auto.
  f_equal; [|auto]. destruct H as [(A & ->)|(A & x & B & ->)], H' as [(A' & ->)|(A' & x' & B' & ->)]; try congruence.
Qed.
Lemma signed_ok : forall c keys nds a, Forall2 (signed_node c keys) nds a -> forall nd, In nd nds -> node_empty nd = false -> exists x, sign_node_rrsets c keys nd = Ok x.
Proof.
  intros c keys nds a H. induction H as [|n d nds a H Ha IH]; intros nd Hin En; [destruct Hin|]. destruct Hin as [->|Hin]; [|eauto].
  destruct H as [(A & _)|(_ & x & B & _)]; [congruence|eauto].
Qed.
Lemma tree_threads : forall c keys start t1 t2 nds nds1 e1, 0 < t1 -> 0 < t2 ->
  zone_tree_sign c keys start t1 nds = Ok (nds1, e1) -> exists e2, zone_tree_sign c keys (fun _ => 0) t2 nds = Ok (nds1, e2).
Proof.
  intros c keys start t1 t2 nds nds1 e1 H1 H2 H. pose proof (tree_signed _ _ _ _ _ _ _ H1 H) as S1.
  destruct (tree_total c keys t2 nds (signed_ok _ _ _ _ S1)) as (nds2 & e2 & E). pose proof (tree_signed _ _ _ _ _ _ _ H2 E) as S2.
  rewrite (signed_fun _ _ _ _ _ S1 S2). eauto.
Qed.

(** *** The zone *)

Lemma well_signed_set : forall c keys nd nd', well_signed c keys nd nd' -> well_signed c keys nd (set_signed nd').
Proof. intros c keys nd nd' H. exact H. Qed.
Lemma signed_well : forall c keys nd nd', node_ok nd -> settings_ok c -> crypto_ok (c_crypto c) -> flag_ok c keys nd -> times_ok c (margin c) nd ->
  signed_node c keys nd nd' -> well_signed c keys nd (set_signed nd').
Proof.
  intros c keys nd nd' Ho Hs Hc Hf Ht [(A & ->)|(A & x & B & ->)].
  - unfold node_empty in A. destruct (n_rrs nd) eqn:E1; [|discriminate]. destruct (n_sigs nd) eqn:E2; [|discriminate].
    unfold well_signed, set_signed. cbn. rewrite E1, E2. repeat match goal with |- _ /\ _ => split end; auto.
    + intros r k [].
    + intros s [].
    + intros r us [].
  - apply well_signed_set. eapply node_well_signed; eauto.
Qed.
Lemma map_forall2 : forall (A B C : Type) (R : A -> B -> Prop) (Q : A -> C -> Prop) (f : B -> C) l m,
  (forall a b, In a l -> R a b -> Q a (f b)) -> Forall2 R l m -> Forall2 Q l (map f m).
Proof.
  intros A B C R Q f l m H F. induction F as [|a b l m X F IH]; cbn [map]; constructor; [apply H; [left; reflexivity|exact X]|].
  apply IH. intros; apply H; auto. right. assumption.
Qed.
Lemma zone_signed : forall c keys start threads z z1 z2 e, settings_ok c -> crypto_ok (c_crypto c) -> zone_ok c keys (fst z ++ snd z) ->
  knot_zone_sign c keys start threads z = Ok (z1, z2, e) ->
  Forall2 (well_signed c keys) (fst z ++ snd z) (z1 ++ z2) /\ (forall nd', In nd' (z1 ++ z2) -> until c e nd') /\
  (forall nd', In nd' (z1 ++ z2) -> n_valid nd' = true) /\ time64 e.
Proof.
  intros c keys start threads (na, nb) z1 z2 e Hs Hc Hz H. cbn [fst snd] in *. unfold knot_zone_sign in H. cbn [fst snd] in H.
  destruct (threads <? 1) eqn:Et; [discriminate|]. assert (Ht : 0 < threads) by lia.
  destruct (zone_tree_sign c keys start threads na) as [(xa, ea)|?| |] eqn:Ea; cbn [rbind] in H; try discriminate.
  destruct (zone_tree_sign c keys start threads nb) as [(xb, eb)|?| |] eqn:Eb; cbn [rbind] in H; try discriminate.
  injection H as <- <- <-.
  assert (Oa : forall nd, In nd na -> node_ok nd) by (intros; apply Hz; apply in_or_app; auto).
  assert (Ob : forall nd, In nd nb -> node_ok nd) by (intros; apply Hz; apply in_or_app; auto).
  destruct (tree_expire _ _ _ _ _ _ _ Ht Oa Ea) as (Ta & La). destruct (tree_expire _ _ _ _ _ _ _ Ht Ob Eb) as (Tb & Lb).
  apply tree_signed in Ea; [|exact Ht]. apply tree_signed in Eb; [|exact Ht].
  split; [|split; [|split]].
  - apply Forall2_app.
    + eapply map_forall2; [|exact Ea]. intros a b Hin X. destruct (Hz a) as (P1 & P2 & P3); [apply in_or_app; auto|]. eapply signed_well; eauto.
    + eapply map_forall2; [|exact Eb]. intros a b Hin X. destruct (Hz a) as (P1 & P2 & P3); [apply in_or_app; auto|]. eapply signed_well; eauto.
  - assert (G : forall nds xs, Forall2 (signed_node c keys) nds xs -> incl nds (na ++ nb) ->
      (forall nd x t, In nd nds -> node_empty nd = false -> sign_node_rrsets c keys nd = Ok x -> lower (ch_expire x) t -> lower (knot_time_min ea eb) t) ->
      forall nd', In nd' (map set_signed xs) -> until c (knot_time_min ea eb) nd').
    { intros nds xs F. induction F as [|a b l m X F IH]; intros Hi L nd' Hin; cbn [map] in Hin; [destruct Hin|]. destruct Hin as [<-|Hin].
      - destruct (Hz a) as (P1 & P2 & P3); [apply Hi; left; reflexivity|]. intros s Hin. cbn [set_signed n_sigs] in Hin. destruct X as [(A & ->)|(A & x & B & ->)].
        + unfold node_empty in A. destruct (n_rrs a); [|discriminate]. destruct (n_sigs a) eqn:E; [|discriminate]. destruct Hin.
        + destruct (node_well_signed c keys a x P1 Hs Hc P2 P3 B) as (_ & U & _). destruct (U s Hin) as (te & R & Le). exists te. split; [exact R|].
          assert (Q : lower (knot_time_min ea eb) te). { eapply (L a x); [left; reflexivity|exact A|exact B|]. split; lia. }
          destruct Q as (Q1 & Q2). pose proof (min_time64 ea eb Ta Tb) as Q3. unfold time64 in Q3. lia.
      - apply IH; auto; [intros y Hy; apply Hi; right; exact Hy|]. intros; eapply (L nd); eauto. right. assumption. }
    intros nd' Hin. apply in_app_or in Hin. destruct Hin as [Hin|Hin].
    + eapply (G na xa); eauto; [intros y Hy; apply in_or_app; auto|]. intros nd x t H1 H2 H3 H4. apply min_lower_l; auto. eapply La; eauto.
    + eapply (G nb xb); eauto; [intros y Hy; apply in_or_app; auto|]. intros nd x t H1 H2 H3 H4. apply min_lower_r; auto. eapply Lb; eauto.
  - intros nd' Hin. rewrite <- map_app in Hin. apply in_map_iff in Hin. destruct Hin as (n & <- & _). reflexivity.
  - apply min_time64; assumption.
Qed.
Lemma zone_threads : forall c keys start t1 t2 z z1 z2 e, 0 < t2 -> knot_zone_sign c keys start t1 z = Ok (z1, z2, e) ->
  exists e2, knot_zone_sign c keys (fun _ => 0) t2 z = Ok (z1, z2, e2).
Proof.
  intros c keys start t1 t2 z z1 z2 e Ht H. unfold knot_zone_sign in *. destruct (t1 <? 1) eqn:E1; [discriminate|]. assert (H1 : 0 < t1) by lia.
  assert (t2 <? 1 = false) as -> by lia.
  destruct (zone_tree_sign c keys start t1 (fst z)) as [(xa, ea)|?| |] eqn:Ea; cbn [rbind] in H; try discriminate.
  destruct (zone_tree_sign c keys start t1 (snd z)) as [(xb, eb)|?| |] eqn:Eb; cbn [rbind] in H; try discriminate.
  injection H as <- <- <-.
  destruct (tree_threads _ _ _ _ t2 _ _ _ H1 Ht Ea) as (ea' & ->). destruct (tree_threads _ _ _ _ t2 _ _ _ H1 Ht Eb) as (eb' & ->).
  cbn [rbind]. eauto.
Qed.
