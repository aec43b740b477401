(** The answer to every query. *)
From Verif Require Import Base BitmapModel DnameSpec DnameProofs3 NsecModel NsecSpec NsecProofs NsecProofs2 NsecProofs3 NsecProofs5 NsecProofs6 NsecProps DenialSpec DenialModel DenialProofs DenialProofs2 DenialProofs3.

Lemma size_eq : forall x, wire_size x = name_size x.
Proof. induction x; cbn [wire_size name_size]; congruence. Qed.
Lemma size_above : forall q c, legal_name q -> below q c -> q <> c -> name_size c <= 253.
Proof.
  intros q c (F & S) (p & ->) N. assert (G : forall p, Forall legal_label (p ++ c) -> p <> [] -> name_size c + 2 <= name_size (p ++ c)).
  { induction p0 as [|l p0 IH]; intros FA NE; [congruence|]. cbn [app name_size] in *. inversion FA as [|? ? (L & _) FA']; subst. destruct p0 as [|l' p0]; [cbn [app]; lia|]. assert (name_size c + 2 <= name_size ((l' :: p0) ++ c)) by (apply IH; [auto|discriminate]). lia. }
  assert (p <> []) by (intros ->; apply N; auto). specialize (G p F H). lia.
Qed.
Lemma has_type_iff : forall n t, has_type n t = true <-> In t (n_types n).
Proof. intros n t. unfold has_type. rewrite existsb_exists. split; [intros (x & H & E); assert (x = t) by lia; subst; auto|intros H; exists t; split; auto; lia]. Qed.
Lemma has_type_not : forall n t, has_type n t = false <-> ~ In t (n_types n).
Proof. intros n t. rewrite <- has_type_iff. destruct (has_type n t); split; congruence. Qed.
Lemma auth_empty : forall apex z x n, ok_zone apex z -> nget z x = Some n -> n_nonauth n = false -> (no_rrsets n = true <-> n_types n = []).
Proof.
  intros apex z x n Z E NA. pose proof (has_auth_eq apex z x n Z E) as H. unfold has_auth, takes_part in H. rewrite NA in H. cbn [negb andb] in H. destruct (n_types n) as [|t ts] eqn:T.
  - split; auto. intros _. apply negb_false_iff in H. auto.
  - apply negb_true_iff in H. split; [congruence|discriminate].
Qed.
Lemma good_nil : forall z, good_out z [].
Proof. split; constructor. Qed.

(** What each outcome says of the node which answers, and proves of it *)
Definition name_found_facts (n : node) (t : Z) (o : outcome) : Prop :=
  match o with
  | Hit => n_nonauth n = false /\ In t (n_types n) /\ (n_deleg n = true -> t = 43)
  | NoData => n_nonauth n = false /\ ~ In t (n_types n) /\ (n_deleg n = true -> t = 43) /\ ~ In 5 (n_types n)
  | Follow => n_nonauth n = false /\ In 5 (n_types n) /\ t <> 5 /\ (n_deleg n = true -> t = 43)
  | Deleg => n_nonauth n = true \/ n_deleg n = true /\ t <> 43
  | Miss => False
  end.
Lemma name_found_ok : forall n t, name_found_facts n t (name_found n t).
Proof.
  intros n t. unfold name_found, T_DS, T_CNAME. destruct ((n_deleg n && negb (t =? 43)) || n_nonauth n) eqn:C.
  - cbn [name_found_facts]. apply orb_true_iff in C. rewrite andb_true_iff, negb_true_iff in C. destruct C as [[C1 C2]|C]; auto. right. split; auto. lia.
  - apply orb_false_iff in C. destruct C as [C1 C2]. assert (n_deleg n = true -> t = 43) as D by (intros X; rewrite X in C1; cbn [andb] in C1; apply negb_false_iff in C1; lia).
    destruct (has_type n 5 && negb (t =? 5)) eqn:CN; cbn [name_found_facts].
    + apply andb_true_iff in CN. destruct CN as [CN1 CN2]. apply has_type_iff in CN1. apply negb_true_iff in CN2. repeat match goal with |- _ /\ _ => split end; auto. lia.
    + destruct (has_type n t) eqn:HT; cbn [name_found_facts]; [apply has_type_iff in HT; auto|]. pose proof HT as HT2. apply has_type_not in HT. repeat match goal with |- _ /\ _ => split end; auto.
      apply has_type_not. destruct (has_type n 5) eqn:H5; auto. cbn [andb] in CN. apply negb_false_iff in CN. assert (t = 5) by lia. subst t. congruence.
Qed.
Lemma own_no_type : forall apex z x n s t, ok_zone apex z -> nget z x = Some n -> 0 <= t < 65536 -> t <> 46 -> t <> 47 -> name_found_facts n t NoData -> n_types n <> [] -> n_nsec n = [s] -> proves_no_type (x, s) x t.
Proof.
  intros apex z x n s t Z E R N46 N47 (NA & NT & D & N5) NE ES. assert (takes_part n = true) as T by (unfold takes_part; rewrite NA; destruct (n_types n); [congruence|auto]).
  destruct (oz_chain _ _ Z x n E T) as (s' & ES' & _ & L). assert (s' = s) by congruence. subst s'. unfold proves_no_type. cbn [fst snd]. split; auto.
  split; [rewrite (bit_iff _ _ t L) by lia; intros [X|[X|[X _]]]; tauto|]. split; [rewrite (bit_iff _ _ 5 L) by lia; intros [X|[X|[X _]]]; try lia; tauto|].
  intros ND. apply (not_from_parent apex z x n); auto. destruct (n_deleg n); auto. exfalso. auto.
Qed.
Lemma own_insecure : forall apex z x n s, ok_zone apex z -> nget z x = Some n -> n_nonauth n = false -> n_deleg n = true -> ~ In 43 (n_types n) -> n_nsec n = [s] -> proves_insecure (x, s) x.
Proof.
  intros apex z x n s Z E NA D N43 ES. destruct (cut_takes apex z x n Z E NA D) as (T & H2 & _).
  destruct (oz_chain _ _ Z x n E T) as (s' & ES' & _ & L). assert (s' = s) by congruence. subst s'. unfold proves_insecure. cbn [fst snd]. split; auto.
  split; [rewrite (bit_iff _ _ 2 L) by lia; right; right; split; auto; lia|]. split; [rewrite (bit_iff _ _ 43 L) by lia; intros [X|[X|[X _]]]; try lia; tauto|].
  rewrite (bit_iff _ _ 6 L) by lia. intros [X|[X|[_ X]]]; try (specialize (X D)); lia.
Qed.
Lemma takes_rec : forall apex z x n, ok_zone apex z -> nget z x = Some n -> takes_part n = true -> exists s, n_nsec n = [s].
Proof. intros apex z x n Z E T. destruct (oz_chain _ _ Z x n E T) as (s & H & _). eauto. Qed.
(** The answer for a delegation *)
Lemma dp_ok : forall apex z d n prev, ok_zone apex z -> nget z d = Some n -> n_nonauth n = false -> n_deleg n = true ->
  exists out ds, prove_dp_security z d prev [] = Ok (out, ds) /\ good_out z out /\ (length out <= 1)%nat /\
    ((ds = Some d /\ In 43 (n_types n)) \/ (ds = None /\ ~ In 43 (n_types n) /\ exists r, In r out /\ proves_insecure r d)).
Proof.
  intros apex z d n prev Z E NA D. unfold prove_dp_security. rewrite E. unfold T_DS. destruct (has_type n 43) eqn:H43.
  - exists [], (Some d). split; auto. split; [apply good_nil|]. split; auto. left. split; auto. apply has_type_iff. auto.
  - apply has_type_not in H43. destruct (cut_takes apex z d n Z E NA D) as (T & H2 & _). unfold put_nsec_nodata. rewrite E. unfold empty_nonterminal.
    destruct (no_rrsets n) eqn:NR; [apply (auth_empty apex z d n Z E NA) in NR; rewrite NR in H2; destruct H2|].
    destruct (put_ok z d [] (good_nil z)) as (out & E1 & G & _ & P & LN); [apply there_get; congruence|intros; eapply one_rec; eauto|]. rewrite E1. cbn [rbind]. exists out, None. split; auto. split; auto. split; auto.
    right. split; auto. split; auto. destruct (takes_rec apex z d n Z E T) as (s & ES). exists (d, s). split; [eapply P; eauto|eapply own_insecure; eauto].
Qed.

Definition answers_from (z : zone) (q : list label) (x : list label) : Prop :=
  (is_there z q /\ x = q) \/ (~ is_there z q /\ exists c, encloser z q c /\ x = star :: c).
(** Everything about an answer *)
Definition answer_facts (apex : list label) (z : zone) (q : list label) (t : Z) (o : outcome) (out : list rec) (ds : option (list label)) : Prop :=
  good_out z out /\ (length out <= 2)%nat /\ (o <> Deleg -> ds = None) /\
  match o with
  | Miss => ~ is_there z q /\ exists c r1 r2, encloser z q c /\ ~ is_there z (star :: c) /\ no_cut z q /\
      In r1 out /\ proves_absent apex r1 q /\ shows_encloser r1 q c /\ In r2 out /\ proves_absent apex r2 (star :: c)
  | Deleg => exists d n, nget z d = Some n /\ n_nonauth n = false /\ n_deleg n = true /\ (below q d \/ answers_from z q d) /\ (d = q -> t <> 43) /\
      ((ds = Some d /\ In 43 (n_types n)) \/ (ds = None /\ ~ In 43 (n_types n) /\ exists r, In r out /\ proves_insecure r d))
  | _ =>
    (o = Follow /\ ~ is_there z q /\ exists c n, encloser z q c /\ nget z c = Some n /\ In 39 (n_types n) /\ n_nonauth n = false /\ n_deleg n = false) \/
    exists x n, answers_from z q x /\ nget z x = Some n /\ name_found_facts n t o /\
      (o = NoData -> n_types n <> [] -> exists r, In r out /\ proves_no_type r x t) /\
      (o = NoData -> n_types n = [] -> is_there z q -> exists r, In r out /\ proves_empty r q) /\
      (~ is_there z q -> is_wildcard q = false -> exists c r, x = star :: c /\ encloser z q c /\ In r out /\ proves_absent apex r q /\ shows_encloser r q c)
  end.
Lemma deleg_above : forall apex z x n, ok_zone apex z -> nget z x = Some n -> n_nonauth n = true \/ n_deleg n = true ->
  exists d m, nget z d = Some m /\ n_nonauth m = false /\ n_deleg m = true /\ deleg_point (S (length x)) z x = Ok d /\ (x = d \/ (x <> d /\ below x d)).
Proof.
  intros apex z x n Z E H. assert (is_there z x) as HX by (apply there_get; congruence). destruct (n_nonauth n) eqn:NA.
  - destruct (nonauth_cut apex z Z x n E NA) as (d & m & A & B & C & D & NE). exists d, m. repeat match goal with |- _ /\ _ => split end; auto. eapply deleg_point_ok; eauto.
  - destruct H as [H|H]; [congruence|]. exists x, n. repeat match goal with |- _ /\ _ => split end; auto. eapply deleg_point_ok; eauto. apply below_refl.
Qed.

Lemma answer_there : forall apex z q t n, ok_zone apex z -> nget z q = Some n -> 0 <= t < 65536 -> t <> 46 -> t <> 47 ->
  exists o out ds, answer z q t = Ok (o, (out, ds)) /\ answer_facts apex z q t o out ds.
Proof.
  intros apex z q t n Z E R N46 N47. assert (is_there z q) as HQ by (apply there_get; congruence). assert (below q apex) as BQ by (eapply there_below; eauto).
  unfold answer, solve_name. destruct (find_there apex z q Z HQ) as (p & EF & FP). rewrite EF. cbn [rbind]. rewrite E. cbn [rbind f_state]. pose proof (name_found_ok n t) as FF.
  assert (AF : answers_from z q q) by (left; auto).
  unfold solve_authority_dnssec. cbn [f_state f_node f_previous f_encloser f_wildcard]. destruct (name_found n t) eqn:EO.
  - exists Hit, [], None. cbn [rbind]. split; auto. split; [apply good_nil|]. split; [cbn [length]; lia|]. split; auto. right. exists q, n. repeat match goal with |- _ /\ _ => split end; auto; try discriminate. tauto.
  - destruct FF.
  - unfold put_nsec_nodata. rewrite E. unfold empty_nonterminal. destruct FF as (NA & FF'). pose proof (auth_empty apex z q n Z E NA) as AE. destruct (no_rrsets n) eqn:NR.
    + assert (n_types n = []) as ET by (apply AE; auto). assert (takes_part n = false) as TF by (unfold takes_part; rewrite ET; apply andb_false_r).
      assert (q <> apex) as NAP by (intros ->; destruct (apex_get _ _ Z) as (k & EK & TK); congruence). destruct (FP NAP) as (P1 & P2 & P3).
      destruct (put_previous_ok apex z q p [] Z (good_nil z)) as (out & r & E1 & G & _ & HR & SP & LN); auto.
      { rewrite (members_get apex) by auto. intros (k & EK & TK). congruence. }
      { rewrite (members_get apex) in P1 by auto. destruct P1 as (k & EK & _). apply there_get. congruence. }
      rewrite E1. cbn [rbind]. exists NoData, out, None. split; auto. split; auto. cbn [length] in LN. split; [lia|]. split; auto. right. exists q, n. repeat match goal with |- _ /\ _ => split end; auto; try tauto; try (cbn [name_found_facts]; tauto).
      intros _ _ _. exists r. split; auto. eapply spans_empty; eauto.
    + destruct (put_ok z q [] (good_nil z) HQ) as (out & E1 & G & _ & P & LN); [intros; eapply one_rec; eauto|]. rewrite E1. cbn [rbind]. exists NoData, out, None. split; auto. split; auto. cbn [length] in LN. split; [lia|]. split; auto.
      assert (n_types n <> []) as NE by (intros X; apply AE in X; congruence). assert (takes_part n = true) as TK by (unfold takes_part; rewrite NA; destruct (n_types n); [congruence|auto]). destruct (takes_rec apex z q n Z E TK) as (s & ES).
      right. exists q, n. repeat match goal with |- _ /\ _ => split end; auto; try tauto; try (cbn [name_found_facts]; tauto).
      intros _ _. exists (q, s). split; [eapply P; eauto|]. eapply own_no_type; eauto. cbn [name_found_facts]. tauto.
  - destruct (deleg_above apex z q n Z E) as (d & m & A & B & C & D & F); [cbn [name_found_facts] in FF; tauto|]. rewrite D. cbn [rbind]. destruct (dp_ok apex z d m p Z A B C) as (out & ds & E1 & G & LN & H). rewrite E1. cbn [rbind].
    exists Deleg, out, ds. split; auto. split; auto. split; [lia|]. split; [congruence|]. exists d, m. repeat match goal with |- _ /\ _ => split end; auto.
    + left. destruct F as [<-|[_ F]]; [apply below_refl|auto].
    + intros X. subst d. assert (m = n) by congruence. subst m. cbn [name_found_facts] in FF. destruct FF as [FF|[_ FF]]; [congruence|auto].
  - exists Follow, [], None. cbn [rbind]. split; auto. split; [apply good_nil|]. split; [cbn [length]; lia|]. split; auto. right. exists q, n. repeat match goal with |- _ /\ _ => split end; auto; try discriminate. tauto.
Qed.
