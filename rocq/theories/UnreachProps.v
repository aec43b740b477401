(** C46: memory of unreachable remotes. *)
From Verif Require Import Base SockaddrModel SockaddrProps UnreachModel.

(** ** Histories: what happened and when (milliseconds) *)
Inductive uop : Type := Report (a v : sockaddr) | ReportNoMem (a v : sockaddr) | Ask (a v : sockaddr) | SetTtl (n : Z).
Definition ustep (s : urs) (e : Z * uop) : urs :=
  match snd e with
  | Report a v => unreachable_add s (fst e) true a v
  | ReportNoMem a v => unreachable_add s (fst e) false a v
  | Ask a v => snd (unreachable_is s (fst e) a v)
  | SetTtl n => snd (unreachables_ttl s n)
  end.
Definition urun (s : urs) (h : list (Z * uop)) : urs := fold_left ustep h s.
Definition op_ok (e : Z * uop) : Prop :=
  match snd e with Report a v | ReportNoMem a v | Ask a v => addr_ok a /\ addr_ok v | SetTtl n => 0 <= n < 2 ^ 32 end.
(** the time to live in force after a history *)
Fixpoint ttl_after (n : Z) (h : list (Z * uop)) : Z := match h with [] => n | (_, SetTtl m) :: h => ttl_after m h | _ :: h => ttl_after n h end.
(** whenever something is asked during [h], not more than the time to live then in force elapsed since [t0] *)
Fixpoint young (t0 n : Z) (h : list (Z * uop)) : Prop :=
  match h with
  | [] => True
  | (_, SetTtl m) :: h => young t0 m h
  | (t, Ask _ _) :: h => 0 <= t - t0 <= n /\ young t0 n h
  | _ :: h => young t0 n h
  end.

Lemma run_ttl : forall h s, us_ttl (urun s h) = ttl_after (us_ttl s) h.
Proof.
  induction h as [|[t []] h IH]; intros s; cbn [urun fold_left ttl_after] in *; auto; unfold urun in IH; rewrite IH; unfold ustep; cbn [fst snd].
  - reflexivity. - reflexivity. - unfold unreachable_is. destruct (get_ur _ _ _ _ _). reflexivity. - reflexivity.
Qed.
Lemma young_keeps : forall t0 n u t, ur_time u = u32 t0 -> 0 <= t - t0 <= n -> n < 2 ^ 32 -> clear_old u (get_timestamp t) n = false.
Proof.
  intros. unfold clear_old, get_timestamp. rewrite H. replace (u32 (u32 t - u32 t0)) with (t - t0). - lia.
  - unfold u32. rewrite <- Zminus_mod. rewrite Z.mod_small; lia.
Qed.
Lemma get_keeps : forall l now n a v u, In u l -> clear_old u now n = false -> In u (snd (get_ur l now n a v)).
Proof.
  induction l as [|x l IH]; intros now n a v u Hi Hc; cbn [get_ur]; auto. destruct (clear_old x now n) eqn:E.
  - destruct Hi as [->|Hi]; [congruence|auto].
  - destruct (_ && _); cbn [snd]; auto. destruct (get_ur l now n a v) as [r l'] eqn:Eg. cbn [snd]. destruct Hi as [->|Hi]; [left; auto|]. right. specialize (IH now n a v u Hi Hc). rewrite Eg in IH. auto.
Qed.
Lemma get_finds : forall l now n a v u, In u l -> clear_old u now n = false -> addr_ok (ur_addr u) -> addr_ok (ur_via u) -> addr_ok a -> addr_ok v -> same_addr (ur_addr u) a false -> same_addr (ur_via u) v true ->
  fst (get_ur l now n a v) <> None.
Proof.
  induction l as [|x l IH]; intros now n a v u Hi Hc OA OV Oa Ov SA SV; cbn [get_ur]; [contradiction|]. destruct (clear_old x now n) eqn:E.
  - destruct Hi as [->|Hi]; [congruence|eauto].
  - destruct (_ && _) eqn:Em; [discriminate|]. destruct (get_ur l now n a v) as [r l'] eqn:Eg. cbn [fst]. destruct Hi as [->|Hi].
    + exfalso. apply (proj2 (c54_same _ _ _ OA Oa)) in SA. apply (proj2 (c54_same _ _ _ OV Ov)) in SV. rewrite SA, SV in Em. discriminate.
    + specialize (IH now n a v u Hi Hc OA OV Oa Ov SA SV). rewrite Eg in IH. auto.
Qed.
Lemma run_keeps : forall h s u t0, Forall op_ok h -> 0 <= us_ttl s < 2 ^ 32 -> In u (us_list s) -> ur_time u = u32 t0 -> young t0 (us_ttl s) h -> In u (us_list (urun s h)) /\ 0 <= us_ttl (urun s h) < 2 ^ 32.
Proof.
  induction h as [|[t o] h IH]; intros s u t0 OK HT Hi Ht Y; [auto|]. inversion OK; subst. change (urun s ((t, o) :: h)) with (urun (ustep s (t, o)) h). destruct o; cbn [young] in Y; unfold ustep; cbn [fst snd].
  - apply (IH _ u t0); auto. cbn [unreachable_add us_list]. right. auto.
  - apply (IH _ u t0); auto.
  - destruct Y as [Y1 Y2]. unfold unreachable_is. destruct (get_ur (us_list s) (get_timestamp t) (us_ttl s) a v) as [r l'] eqn:E. cbn [snd].
    apply (IH _ u t0); auto. cbn [us_list]. replace l' with (snd (get_ur (us_list s) (get_timestamp t) (us_ttl s) a v)) by (rewrite E; auto). apply get_keeps; auto. eapply young_keeps; eauto. lia.
  - apply (IH _ u t0); auto.
Qed.
(** ** A reported address is remembered for the configured time, whatever is asked, reported or set meanwhile. *)
Theorem c46_kept : forall ttl h1 h2 t0 t a v a' v', 0 <= ttl < 2 ^ 32 -> Forall op_ok (h1 ++ (t0, Report a v) :: h2) -> addr_ok a' -> addr_ok v' ->
  same_addr a a' false -> same_addr v v' true ->
  young t0 (ttl_after ttl h1) h2 -> 0 <= t - t0 <= ttl_after ttl (h1 ++ (t0, Report a v) :: h2) ->
  fst (unreachable_is (urun (unreachables_init ttl) (h1 ++ (t0, Report a v) :: h2)) t a' v') = true.
Proof.
  intros ttl h1 h2 t0 t a v a' v' HT OK Oa Ov SA SV Y Ht.
  assert (T1 : forall h n, Forall op_ok h -> 0 <= n < 2 ^ 32 -> 0 <= ttl_after n h < 2 ^ 32). { induction h as [|[x o] h IH]; intros n O Hn; [|destruct o]; cbn [ttl_after]; auto; inversion O; subst; auto. }
  pose proof (T1 _ _ OK HT) as TT. rewrite <- (run_ttl _ (unreachables_init ttl)) in Ht at 1. unfold urun in *. rewrite fold_left_app in *. cbn [fold_left] in *. change (fold_left ustep h1 (unreachables_init ttl)) with (urun (unreachables_init ttl) h1) in *.
  apply Forall_app in OK. destruct OK as [OK1 OK2]. inversion OK2; subst. cbn [op_ok snd] in H1. set (s1 := ustep (urun (unreachables_init ttl) h1) (t0, Report a v)) in *.
  change (fold_left ustep h2 s1) with (urun s1 h2) in *.
  assert (E1 : us_ttl s1 = ttl_after ttl h1). { unfold s1, ustep. cbn [fst snd unreachable_add us_ttl]. rewrite run_ttl. reflexivity. }
  destruct (run_keeps h2 s1 (mkur a v (get_timestamp t0)) t0) as [I B]; auto. { rewrite E1. auto. } { unfold s1, ustep. cbn [fst snd unreachable_add us_list]. left. auto. } { rewrite E1. auto. }
  set (s2 := urun s1 h2) in *. unfold unreachable_is. destruct (get_ur (us_list s2) (get_timestamp t) (us_ttl s2) a' v') as [r l'] eqn:E. cbn [fst].
  pose proof (get_finds (us_list s2) (get_timestamp t) (us_ttl s2) a' v' _ I) as F. rewrite E in F. cbn [fst ur_addr ur_via] in F. destruct r; auto. exfalso. apply F; auto; try tauto. apply (young_keeps t0); auto. lia.
Qed.
Lemma get_found : forall l now n a v u, fst (get_ur l now n a v) = Some u -> In u l /\ clear_old u now n = false /\ sockaddr_cmp (ur_addr u) a false = 0 /\ sockaddr_cmp (ur_via u) v true = 0.
Proof.
  induction l as [|x l IH]; intros now n a v u H; cbn [get_ur] in H; [discriminate|]. destruct (clear_old x now n) eqn:E; [destruct (IH _ _ _ _ _ H) as (A & B); split; [right; auto|auto]|].
  destruct (_ && _) eqn:Em.
  - injection H as <-. split; [left; auto|]. split; auto. lia.
  - destruct (get_ur l now n a v) as [r l'] eqn:Eg. cbn [fst] in H. subst. specialize (IH now n a v u). rewrite Eg in IH. destruct (IH eq_refl) as (A & B). split; [right; auto|auto].
Qed.
Lemma get_incl : forall l now n a v u, In u (snd (get_ur l now n a v)) -> In u l.
Proof.
  induction l as [|x l IH]; intros now n a v u H; cbn [get_ur] in H; auto. destruct (clear_old x now n); [right; eauto|]. destruct (_ && _); auto.
  destruct (get_ur l now n a v) as [r l'] eqn:Eg. cbn [snd] in H. destruct H as [->|H]; [left; auto|right]. apply (IH now n a v). rewrite Eg. auto.
Qed.
Lemma run_sound : forall h s u, In u (us_list (urun s h)) -> In u (us_list s) \/ exists t0 a v, In (t0, Report a v) h /\ u = mkur a v (u32 t0).
Proof.
  induction h as [|[t o] h IH]; intros s u H; [auto|]. change (urun s ((t, o) :: h)) with (urun (ustep s (t, o)) h) in H. destruct (IH _ _ H) as [I|(t0 & a & v & I & E)]; [|right; exists t0, a, v; split; [right; auto|auto]].
  destruct o; unfold ustep in I; cbn [fst snd] in I.
  - cbn [unreachable_add us_list] in I. destruct I as [<-|I]; [|auto]. right. exists t, a, v. split; [left; auto|reflexivity].
  - auto.
  - unfold unreachable_is in I. destruct (get_ur (us_list s) (get_timestamp t) (us_ttl s) a v) as [r l'] eqn:E. cbn [snd us_list] in I. left. apply (get_incl _ (get_timestamp t) (us_ttl s) a v). rewrite E. auto.
  - auto.
Qed.
(** ** And not longer: an address is reported as unreachable only on account of a report of the same address at
    most the configured time ago. Assumed, because the clock has 32 bits and zero marks entries that never
    expire (both refuted below): no report was made when the clock's lower 32 bits were zero, and none
    is older than 2^32 milliseconds. *)
Theorem c46_expires_partial : forall ttl h t a v, 0 <= ttl < 2 ^ 32 -> Forall op_ok h -> addr_ok a -> addr_ok v ->
  (forall t0 a0 v0, In (t0, Report a0 v0) h -> t0 mod 2 ^ 32 <> 0 /\ 0 <= t - t0 < 2 ^ 32) ->
  fst (unreachable_is (urun (unreachables_init ttl) h) t a v) = true ->
  exists t0 a0 v0, In (t0, Report a0 v0) h /\ same_addr a0 a false /\ same_addr v0 v true /\ t - t0 <= ttl_after ttl h.
Proof.
  intros ttl h t a v HT OK Oa Ov HC H. unfold unreachable_is in H. set (s := urun (unreachables_init ttl) h) in *. destruct (get_ur (us_list s) (get_timestamp t) (us_ttl s) a v) as [r l'] eqn:E. cbn [fst] in H. destruct r as [u|]; [|discriminate].
  destruct (get_found (us_list s) (get_timestamp t) (us_ttl s) a v u) as (I & C & SA & SV); [rewrite E; auto|]. destruct (run_sound h _ _ I) as [[]|(t0 & a0 & v0 & I0 & ->)]. exists t0, a0, v0. split; auto.
  rewrite Forall_forall in OK. pose proof (OK _ I0) as [O1 O2]. cbn [ur_addr ur_via] in *. apply (proj1 (c54_same _ _ _ O1 Oa)) in SA. apply (proj1 (c54_same _ _ _ O2 Ov)) in SV. split; auto. split; auto.
  destruct (HC _ _ _ I0) as [Hz Hr]. unfold s in C. rewrite run_ttl in C. change (us_ttl (unreachables_init ttl)) with ttl in C. unfold clear_old, get_timestamp in C. cbn [ur_time] in C.
  replace (u32 (u32 t - u32 t0)) with (t - t0) in C by (unfold u32; rewrite <- Zminus_mod, Z.mod_small; lia). unfold u32 in C. lia.
Qed.
Example c46_case : let a := SIn4 [10; 0; 0; 1] [0; 53] in let h := [(5, Report a SUnspec); (9, Ask a SUnspec); (10, SetTtl 7)] in
  fst (unreachable_is (urun (unreachables_init 20) h) 12 a SUnspec) = true /\ fst (unreachable_is (urun (unreachables_init 20) h) 13 a SUnspec) = false.
Proof. split; reflexivity. Qed.
(** Reported when the clock shows zero in its lower 32 bits: never forgotten. *)
Theorem c46_expires_zero_refuted : exists ttl t0 a v, 0 <= ttl < 2 ^ 32 /\ addr_ok a /\ addr_ok v /\ forall t, t0 <= t -> fst (unreachable_is (urun (unreachables_init ttl) [(t0, Report a v)]) t a v) = true.
Proof.
  exists 10, (2 ^ 32), SUnspec, SUnspec. split; [lia|]. split; [exact I|]. split; [exact I|]. intros t Ht. unfold unreachable_is. reflexivity.
Qed.
(** A report may come back to life after 2^32 milliseconds (almost 50 days). *)
Theorem c46_expires_wrap_refuted : exists ttl t0 t a v, 0 <= ttl < 2 ^ 32 /\ addr_ok a /\ addr_ok v /\ t0 mod 2 ^ 32 <> 0 /\ t - t0 > ttl /\ fst (unreachable_is (urun (unreachables_init ttl) [(t0, Report a v)]) t a v) = true.
Proof. exists 10, 5, (2 ^ 32 + 6), SUnspec, SUnspec. repeat split; try lia; try discriminate. Qed.
Print Assumptions c46_kept.
Print Assumptions c46_expires_partial.
