(** What the search finds and what the records put prove. *)
From Verif Require Import Base BitmapModel DnameSpec DnameProofs3 NsecModel NsecSpec NsecProofs NsecProofs2 NsecProofs3 NsecProofs5 NsecProofs6 NsecProps DenialSpec DenialModel DenialProofs.
From Coq Require Import Sorting.Sorted.

(** * The search *)
Lemma parent_there : forall z l p, is_there z p -> node_parent z (l :: p) = Some p.
Proof. intros z l p H. unfold node_parent. apply there_get in H. destruct (nget z p); [auto|congruence]. Qed.
Lemma climb_ok : forall apex z c, ok_zone apex z -> forall fuel x, is_there z x -> below x c -> below c apex -> (length x < fuel)%nat -> climb fuel z x (length c) = Ok c.
Proof.
  intros apex z c Z. induction fuel as [|fuel IH]; intros x H B A L; [lia|]. cbn [climb]. destruct (Nat.ltb_spec (length c) (length x)) as [C|C].
  - destruct x as [|l x]; [cbn [length] in C; lia|]. destruct (below_tl _ _ _ B) as [E|B']; [rewrite <- E in C; lia|].
    assert (is_there z x) as HX by (apply (above_there apex z Z (l :: x)); auto; [exists [l]; auto|eapply below_trans; eauto]).
    rewrite parent_there by auto. apply IH; auto. cbn [length] in L. lia.
  - f_equal. apply below_eq; auto. apply below_len in B. lia.
Qed.
Lemma encloser_strict : forall z q c, encloser z q c -> ~ is_there z q -> canonical_lt c q.
Proof. intros z q c (H1 & H2 & _) N. apply below_lt; auto. intros ->. auto. Qed.
(** The last name of the zone before one which is not there *)
Lemma last_before : forall apex z q, ok_zone apex z -> below q apex -> ~ is_there z q ->
  exists p, last_opt (filter (fun y => name_ltb y q) (map fst z)) = Some p /\ is_there z p /\ canonical_lt p q /\ (forall y, is_there z y -> canonical_lt y q -> cle y p).
Proof.
  intros apex z q Z B N. destruct (apex_get _ _ Z) as (n & E & _). assert (is_there z apex) as HA by (apply there_get; congruence).
  destruct (below_split (map fst z) q apex) as (A & p & E1 & H1 & H2 & H3 & _); [apply (oz_sorted _ _ Z)|apply there_names; auto|apply below_lt; auto; intros ->; auto|].
  exists p. rewrite E1, last_opt_app. split; auto. split; [apply there_names; auto|]. split; auto. intros y Hy L. apply there_names in Hy. destruct (H3 y Hy L); [left|right]; auto.
Qed.
Lemma last_encloser : forall apex z q p, ok_zone apex z -> below q apex -> ~ is_there z q -> is_there z p -> canonical_lt p q -> (forall y, is_there z y -> canonical_lt y q -> cle y p) ->
  exists c, encloser z q c /\ below p c /\ matched_labels p q = length c.
Proof.
  intros apex z q p Z B N HP L MX. destruct (matched_spec p q) as (c & C1 & C2 & M & G). exists c. split; [|auto].
  assert (below c apex) as CA by (apply G; auto; eapply there_below; eauto).
  split; [eapply above_there; eauto|]. split; auto. intros d Hd Qd. apply G; auto.
  apply (between_below d p q Qd); [|right; auto]. apply MX; auto. apply below_lt; auto. intros ->. auto.
Qed.
Lemma find_missing : forall apex z q, ok_zone apex z -> below q apex -> ~ is_there z q ->
  exists c p, find_dname z q = Ok (None, c, p) /\ encloser z q c /\ is_there z p /\ canonical_lt p q /\ (forall y, is_there z y -> canonical_lt y q -> cle y p).
Proof.
  intros apex z q Z B N. destruct (last_before apex z q Z B N) as (p & E & H1 & H2 & H3). destruct (last_encloser apex z q p Z B N H1 H2 H3) as (c & EC & PC & M).
  exists c, p. split; auto. unfold find_dname. destruct (nget z q) eqn:EQ; [exfalso; apply N; apply there_get; congruence|]. rewrite E, M.
  rewrite (climb_ok apex z c Z); auto. eapply there_below; eauto. apply EC.
Qed.
Lemma prev_before : forall apex z q, ok_zone apex z -> below q apex -> q <> apex ->
  exists p, node_prev z q = Some p /\ In p (members z) /\ canonical_lt p q /\ (forall y, In y (members z) -> canonical_lt y q -> cle y p).
Proof.
  intros apex z q Z B N. destruct (apex_get _ _ Z) as (n & E & T). assert (In apex (members z)) as HA by (apply (members_get apex); eauto).
  destruct (below_split (members z) q apex) as (A & p & E1 & H1 & H2 & H3 & _); [apply (members_sorted apex); auto|auto|apply below_lt; auto|].
  exists p. unfold node_prev. rewrite (auth_names_eq apex z Z), E1, last_opt_app. split; [auto|]. split; [auto|]. split; [auto|]. intros y Hy L. destruct (H3 y Hy L); [left|right]; auto.
Qed.
Lemma find_there : forall apex z q, ok_zone apex z -> is_there z q -> exists p, find_dname z q = Ok (Some q, q, p) /\
  (q <> apex -> In p (members z) /\ canonical_lt p q /\ (forall y, In y (members z) -> canonical_lt y q -> cle y p)).
Proof.
  intros apex z q Z H. unfold find_dname. pose proof (proj1 (there_get z q) H) as G. destruct (nget z q) eqn:E; [|congruence].
  destruct (name_dec q apex) as [->|N].
  - unfold node_prev. rewrite (auth_names_eq apex z Z). destruct (apex_get _ _ Z) as (m & EM & T). assert (In apex (members z)) as HA by (apply (members_get apex); eauto).
    assert (exists y, last_opt (members z) = Some y) as (y & EY).
    { destruct (last_split (members z)) as (a & y & ->); [intros X; rewrite X in HA; destruct HA|]. exists y. apply last_opt_app. }
    rewrite EY. destruct (last_opt (filter (fun y0 => name_ltb y0 apex) (members z))); eexists; split; try reflexivity; congruence.
  - destruct (prev_before apex z q Z) as (p & E1 & R); auto; [eapply there_below; eauto|]. rewrite E1. exists p. auto.
Qed.

(** * The member before a name *)
Lemma nsec_prev_ok : forall apex z p, ok_zone apex z -> is_there z p -> exists x, nsec_previous (S (length z)) z p = Ok x /\ In x (members z) /\ cle x p /\ (forall y, In y (members z) -> cle y p -> cle y x).
Proof.
  intros apex z p Z H. assert (below p apex) as B by (eapply there_below; eauto). pose proof (proj1 (there_get z p) H) as G. destruct (nget z p) as [n|] eqn:E; [|congruence].
  assert (forall x m fuel, nget z x = Some m -> takes_part m = true -> nsec_previous (S fuel) z x = Ok x) as STEP.
  { intros x m fuel EX T. cbn [nsec_previous]. rewrite EX. change (node_in_nsec m) with (has_auth m). rewrite (has_auth_eq apex z x m Z EX), T. auto. }
  destruct (takes_part n) eqn:T.
  - exists p. split; [eapply STEP; eauto|]. split; [apply (members_get apex); eauto|]. split; [left; auto|]. auto.
  - assert (p <> apex) as N by (intros ->; destruct (apex_get _ _ Z) as (m & EM & TM); congruence).
    destruct (prev_before apex z p Z B N) as (x & E1 & H1 & H2 & H3). exists x. pose proof H1 as HM. rewrite (members_get apex) in HM by auto. destruct HM as (m & EM & TM).
    split; [|split; auto; split; [right; auto|]].
    + cbn [nsec_previous]. rewrite E. change (node_in_nsec n) with (has_auth n). rewrite (has_auth_eq apex z p n Z E), T, E1.
      destruct (length z) as [|k] eqn:EL; [destruct z; [discriminate E|discriminate EL]|]. eapply STEP; eauto.
    + intros y Hy [->|L]; [|auto]. rewrite (members_get apex) in Hy by auto. destruct Hy as (m' & EM' & TM'). congruence.
Qed.
(** The record of the member before a name which is not a member *)
Definition spans (apex : list label) (z : zone) (q : list label) (r : rec) : Prop :=
  (exists n, nget z (fst r) = Some n /\ takes_part n = true /\ n_nsec n = [snd r] /\ lists (ns_bitmap (snd r)) (to_list n)) /\
  is_there z (ns_next (snd r)) /\ canonical_lt (fst r) q /\ (forall y, In y (members z) -> canonical_lt y q -> cle y (fst r)) /\
  ((ns_next (snd r) = apex /\ forall y, In y (members z) -> cle y (fst r)) \/
   (canonical_lt q (ns_next (snd r)) /\ forall y, In y (members z) -> canonical_lt q y -> cle (ns_next (snd r)) y)).
Lemma member_spans : forall apex z q x, ok_zone apex z -> ~ In q (members z) -> In x (members z) -> canonical_lt x q -> (forall y, In y (members z) -> canonical_lt y q -> cle y x) ->
  exists n s, nget z x = Some n /\ n_nsec n = [s] /\ spans apex z q (x, s).
Proof.
  intros apex z q x Z NQ HX L MX. pose proof HX as HX2. rewrite (members_get apex) in HX2 by auto. destruct HX2 as (n & E & T). destruct (oz_chain _ _ Z x n E T) as (s & E1 & F & LI).
  exists n, s. split; auto. split; auto. pose proof (members_sorted apex z Z) as SM. destruct (follows_in _ _ _ F) as [_ FN].
  assert (is_there z (ns_next s)) as HN by (rewrite (members_get apex) in FN by auto; destruct FN as (m & EM & _); apply there_get; congruence).
  split; [exists n; cbn [fst snd]; auto|]. cbn [fst snd]. split; auto. split; auto. split; auto.
  destruct F as [(a & b & EM)|[(a & EM) (b & EB)]].
  - right. rewrite EM in SM. apply sorted_app_inv in SM. destruct SM as (SA & SB & LT). apply sorted_inv in SB. destruct SB as (SB & LB). apply sorted_inv in SB. destruct SB as (SB & LC).
    assert (canonical_lt q (ns_next s)) as QN.
    { destruct (clt_total q (ns_next s)) as [X|[X|X]]; auto; [subst q; tauto|]. exfalso. specialize (MX _ FN X). assert (canonical_lt x (ns_next s)) as XN by (apply LB; left; auto). destruct MX as [MX|MX]; [rewrite MX in XN; eapply clt_irrefl; eauto|eapply not_lt; eauto]. }
    split; auto. intros y Hy Ly. rewrite EM, in_app_iff in Hy. destruct Hy as [Hy|[<-|[<-|Hy]]]; [|exfalso; eapply not_lt; eauto|left; auto|right; auto].
    exfalso. apply (not_lt y q); auto. eapply clt_trans; [|exact L]. apply LT; auto. left; auto.
  - left. split; [destruct (oz_first _ _ Z) as (n0 & rest & EZ & T0); rewrite EZ in EB; unfold members in EB; cbn [filter snd] in EB; rewrite T0 in EB; cbn [map fst] in EB; injection EB as <- _; auto|].
    intros y Hy. rewrite EM in SM, Hy. apply sorted_app_inv in SM. destruct SM as (_ & _ & LT). rewrite in_app_iff in Hy. destruct Hy as [Hy|[<-|[]]]; [right; apply LT; auto; left; auto|left; auto].
Qed.

Lemma nodup_snoc : forall {A} (l : list A) x, NoDup l -> ~ In x l -> NoDup (l ++ [x]).
Proof.
  intros A l x H N. rewrite <- (rev_involutive (l ++ [x])). apply NoDup_rev. rewrite rev_app_distr. cbn [rev app]. constructor; [rewrite <- in_rev; auto|apply NoDup_rev; auto].
Qed.
Definition of_zone (z : zone) (r : rec) : Prop := exists n, nget z (fst r) = Some n /\ In (snd r) (n_nsec n).
Definition good_out (z : zone) (out : list rec) : Prop := Forall (of_zone z) out /\ NoDup (map fst out).
(** A node which has a record: it is put, once. *)
Lemma put_ok : forall z x out, good_out z out -> is_there z x -> (forall n, nget z x = Some n -> (length (n_nsec n) <= 1)%nat) ->
  exists out', put_nsec_from_node z x out = Ok out' /\ good_out z out' /\ (forall r, In r out -> In r out') /\
    (forall n s, nget z x = Some n -> n_nsec n = [s] -> In (x, s) out') /\ (length out' <= S (length out))%nat.
Proof.
  intros z x out (G1 & G2) H ONE. pose proof (proj1 (there_get z x) H) as G. unfold put_nsec_from_node. destruct (nget z x) as [n|] eqn:E; [|congruence].
  match goal with |- context [existsb ?f out] => destruct (existsb f out) eqn:EX end.
  - exists out. split; auto. split; [split; auto|]. split; auto. split; [|lia]. intros m s Em Es. injection Em as <-. apply existsb_exists in EX. destruct EX as ([y s'] & HI & EQ). apply eqb_spec in EQ. cbn [fst] in EQ. subst y.
    rewrite Forall_forall in G1. destruct (G1 _ HI) as (m & Em & Hs). cbn [fst snd] in *. rewrite E in Em. injection Em as <-. rewrite Es in Hs. destruct Hs as [<-|[]]. auto.
  - assert (~ In x (map fst out)) as NI.
    { intros HI. apply in_map_iff in HI. destruct HI as (r & <- & HI). apply diff_true_false. rewrite <- EX. symmetry. apply existsb_exists. exists r. split; auto. apply eqb_refl. }
    exists (out ++ map (fun s => (x, s)) (n_nsec n)). split; auto. specialize (ONE n eq_refl). destruct (n_nsec n) as [|s [|]] eqn:EN; cbn [map length] in *; [| |lia].
    + rewrite app_nil_r. split; [split; auto|]. split; auto. split; [intros m s Em Es; injection Em as <-; congruence|lia].
    + split; [split|].
      * apply Forall_app. split; auto. constructor; auto. exists n. cbn [fst snd]. rewrite EN. split; auto. left; auto.
      * rewrite map_app. cbn [map fst]. apply nodup_snoc; auto.
      * split; [intros r Hr; apply in_app_iff; auto|]. split; [|rewrite app_length; cbn [length]; lia]. intros m s' Em Es. injection Em as <-. rewrite EN in Es. injection Es as <-. apply in_app_iff. right; left; auto.
Qed.
Lemma one_rec : forall apex z x n, ok_zone apex z -> nget z x = Some n -> (length (n_nsec n) <= 1)%nat.
Proof.
  intros apex z x n Z E. destruct (takes_part n) eqn:T; [destruct (oz_chain _ _ Z x n E T) as (s & -> & _); auto|]. destruct (oz_aside _ _ Z x n E T) as [-> _]. cbn [length]. lia.
Qed.
(** Putting the record of the member before a name, from the node found before it *)
Lemma put_previous_ok : forall apex z q p out, ok_zone apex z -> good_out z out -> ~ In q (members z) -> is_there z p -> canonical_lt p q -> (forall y, In y (members z) -> canonical_lt y q -> cle y p) ->
  exists out' r, put_previous z p out = Ok out' /\ good_out z out' /\ (forall r', In r' out -> In r' out') /\ In r out' /\ spans apex z q r /\ (length out' <= S (length out))%nat.
Proof.
  intros apex z q p out Z G NQ HP L MX. destruct (nsec_prev_ok apex z p Z HP) as (x & E1 & HX & LX & MXX). unfold put_previous. rewrite E1. cbn [rbind].
  assert (is_there z x) as HXX by (rewrite (members_get apex) in HX by auto; destruct HX as (m & EM & _); apply there_get; congruence).
  destruct (member_spans apex z q x Z NQ HX) as (n & s & E2 & E3 & SP); [eapply cle_lt; eauto|intros y Hy Ly; apply MXX; auto|].
  destruct (put_ok z x out G HXX) as (out' & E4 & G' & K & P & LN); [intros; eapply one_rec; eauto|]. exists out', (x, s). eauto 10.
Qed.
