(** C37: automatic key management. *)
From Verif Require Import Base KeyModel KeySpec KeyProofs KeyProofs2 KeyProofs3 KeyProofs4 KeyProofs5 KeyProofs6 KeyProofs7 KeyProofs8 KeyProofs9 KeyProofs10.
From Coq Require Import Permutation.

Fixpoint pw (l : list Z) : Prop := match l with [] => True | x :: l => (x <> 0 -> Forall (fun y => y <> 0 -> x <= y) l) /\ pw l end.
Lemma pw_asc : forall l, pw l -> ascending (filter (fun x => negb (x =? 0)) l).
Proof.
  induction l as [|x l IH]; cbn [pw filter ascending]; [auto|]. intros [A B]. destruct (x =? 0) eqn:E; cbn [negb ascending]; [auto|]. split; [|auto]. apply Forall_forall. intros y I. apply filter_In in I. destruct I as [I J]. apply (proj1 (Forall_forall _ _) (A ltac:(lia)) y I). lia.
Qed.
Lemma kinv_ordered : forall now k, kinv now k -> ordered k.
Proof.
  intros now k [P1 P2 P3 P4 P5 P6 P7 P8 P9 P10 P11 P12 P13 P14 P15 P16 P17 P18 P19 P20 P21 P22 P23 P24 P25 P26]. apply pw_asc. unfold life. cbv zeta. clear P1 P2 P3 P9 P23 P24 P25 P26.
  cbn [pw]. repeat match goal with |- _ /\ _ => split end; auto; intros N; repeat (apply Forall_cons; [intros M; lia|]); constructor.
Qed.
(** The times of every key are in order, whatever happens *)
Theorem c37_ordered : forall now ks, history any_run now ks -> Forall ordered ks.
Proof. intros now ks H. destruct (history_inv _ _ _ H) as [_ V]. eapply Forall_impl; [|apply (in_keys _ _ V)]. apply kinv_ordered. Qed.
(** A key that is removed, now or at a time already set, has been retired before *)
Theorem c37_removed_after_retired : forall now ks k, history any_run now ks -> In k ks -> t_remove (k_t k) <> 0 -> retired_by k (t_remove (k_t k)).
Proof.
  intros now ks k H I N. destruct (history_inv _ _ _ H) as [_ V]. pose proof (proj1 (Forall_forall _ _) (in_keys _ _ V) k I) as K.
  pose proof (ki_rem1 _ _ K). pose proof (ki_rem2 _ _ K ltac:(lia)). pose proof (ki_ra _ _ K). pose proof (ki_ret _ _ K). pose proof (ki_post _ _ K). unfold retired_by. cbn [In].
  destruct (Z.eq_dec (ra k) 0); [destruct (Z.eq_dec (ret k) 0)|]; [exists (post k)|exists (ret k)|exists (ra k)]; (split; [tauto|lia]).
Qed.
(** Every key is in one of the states of its life *)
Theorem c37_states : forall now ks k, history any_run now ks -> In k ks -> get_key_state k now <> KInvalid /\ get_key_state k now <> KRevoked.
Proof.
  intros now ks k H I. destruct (history_inv _ _ _ H) as [B V]. pose proof (state_spec now k ltac:(lia) (proj1 (Forall_forall _ _) (in_keys _ _ V) k I)) as F. split; intros E; rewrite E in F; exact F.
Qed.
(** No assertion of a rollover run or of a confirmation fails *)
Theorem c37_no_ub : forall now ks fuel e p fl delay, history any_run now ks -> policy_ok p -> allow_all fl -> is_u32 delay ->
  key_rollover fuel e p fl now ks <> UB /\ sbm_confirm e now delay ks <> UB.
Proof.
  intros now ks fuel e p fl delay H PO HF HD. destruct (history_inv _ _ _ H) as [B V]. split; intros E.
  - pose proof (rollover_spec False fuel e p fl now ks B V HF ltac:(tauto)) as S. rewrite E in S. exact S.
  - pose proof (confirm_spec e now delay ks B V HD) as S. rewrite E in S. exact S.
Qed.
(** A rollover run keeps every key with the times it had, or has deleted it when that was allowed; other keys are
    created by it *)
Theorem c37_run_keeps_keys : forall now ks fuel e p fl ks', history any_run now ks -> policy_ok p -> allow_all fl -> key_rollover fuel e p fl now ks = Ok ks' ->
  (forall k, In k ks -> (exists k', In k' ks' /\ later k k') \/ exists k', later k k' /\ may_delete p now k') /\
  (forall k', In k' ks' -> (exists k, In k ks /\ later k k') \/ t_created (k_t k') = now).
Proof.
  intros now ks fuel e p fl ks' H PO HF R. destruct (history_inv _ _ _ H) as [B V]. pose proof (history_nofut _ _ _ H) as NF. pose proof (rollover_spec False fuel e p fl now ks B V HF ltac:(tauto)) as S. rewrite R in S. destruct S as [-> |[S _]].
  - split; intros k I; left; exists k; split; auto using later_refl.
  - apply (steps_keys _ _ _ _ _ B ltac:(apply PO) V NF S).
Qed.
(** A confirmation keeps every key with the times it had, and creates none *)
Theorem c37_confirm_keeps_keys : forall now ks e delay ks', history any_run now ks -> is_u32 delay -> sbm_confirm e now delay ks = Ok ks' ->
  (forall k, In k ks -> exists k', In k' ks' /\ later k k') /\ length ks' = length ks.
Proof.
  intros now ks e delay ks' H HD R. destruct (history_inv _ _ _ H) as [B V]. pose proof (history_nofut _ _ _ H) as NF. pose proof (confirm_spec e now delay ks B V HD) as S. rewrite R in S. destruct S as (k & I & Q & ST & RP). split.
  - assert (NK : next_keys (mkpol true 0 true 0 0 0 0 0 0 0 true) now ks ks') by (eapply nk_replaced; eauto; [lia|rewrite Q; exact ST]). intros x J. destruct (proj1 NK x J) as [(k' & J' & L & _)|(D & _)]; [eauto|discriminate].
  - destruct RP as [r P P' _|old r P P' _ _ _|old z r P P' _ _ _ _]; rewrite (Permutation_length P), (Permutation_length P'); reflexivity.
Qed.

(** *** Playing events *)
Inductive event := ETime (now' : Z) | ERoll (p : policy) (fl : rflags) | EConfirm (delay : Z).
Definition good : env := mkenv (fun _ => true) true true.
Definition u32b (x : Z) : bool := (0 <=? x) && (x <? 2 ^ 32).
Definition policy_okb (p : policy) : bool :=
  u32b (p_zsk_lifetime p) && u32b (p_ksk_lifetime p) && u32b (p_delete_delay p) && u32b (p_max_ttl p) && u32b (p_key_ttl p) && u32b (p_prop p) && u32b (p_sbm_timeout p).
Definition fab_b (p : policy) (fl : rflags) (now : Z) (ks : list key) : bool :=
  negb (fl_force_ksk fl) ||
  forallb (fun k => negb (k_ksk k && (in_state now KReady k || in_state now KActive k)) || ((k_alg k =? p_alg p) && Bool.eqb (k_zsk k) (p_sts p))) ks.
Fixpoint play (okb : policy -> rflags -> Z -> list key -> bool) (l : list event) (now : Z) (ks : list key) : option (Z * list key) :=
  match l with
  | [] => Some (now, ks)
  | ETime now' :: l => if (now <=? now') && (now' <? 2 ^ 63) then play okb l now' ks else None
  | ERoll p fl :: l =>
    if policy_okb p && fl_ksk fl && fl_zsk fl && okb p fl now ks then
      match key_rollover 20 good p fl now ks with Ok ks => play okb l now ks | _ => None end
    else None
  | EConfirm d :: l => if u32b d then match sbm_confirm good now d ks with Ok ks => play okb l now ks | _ => None end else None
  end.
Lemma play_history : forall (ok : policy -> rflags -> Z -> list key -> Prop) okb l now ks now' ks', (forall p fl now ks, okb p fl now ks = true -> ok p fl now ks) -> history ok now ks -> play okb l now ks = Some (now', ks') -> history ok now' ks'.
Proof.
  intros ok okb l. induction l as [|[t|p fl|d] l IH]; intros now ks now' ks' HO H P; cbn [play] in P.
  - injection P as <- <-. exact H.
  - destruct ((now <=? t) && (t <? 2 ^ 63)) eqn:E; [|discriminate]. eapply IH; [exact HO| |exact P]. eapply h_time; [exact H|lia].
  - destruct (policy_okb p && fl_ksk fl && fl_zsk fl && okb p fl now ks) eqn:E; [|discriminate]. destruct (key_rollover 20 good p fl now ks) as [k| | |] eqn:R; try discriminate. apply andb_true_iff in E. destruct E as [E E4]. apply andb_true_iff in E. destruct E as [E E3]. apply andb_true_iff in E. destruct E as [E1 E2].
    eapply IH; [exact HO| |exact P]. apply (h_roll ok now ks 20 good p fl k); [exact H| |split; assumption|apply HO; exact E4|exact R]. unfold policy_okb, u32b in E1. unfold policy_ok, is_u32. lia.
  - destruct (u32b d) eqn:E; [|discriminate]. destruct (sbm_confirm good now d ks) as [k| | |] eqn:R; try discriminate. eapply IH; [exact HO| |exact P]. apply (h_confirm ok now ks good d k); [exact H| |exact R]. unfold u32b in E. unfold is_u32. lia.
Qed.
Lemma play_any : forall l now now' ks', 0 < now < 2 ^ 63 -> play (fun _ _ _ _ => true) l now [] = Some (now', ks') -> history any_run now' ks'.
Proof. intros l now now' ks' B P. eapply play_history; [|apply h_start; exact B|exact P]. intros. exact I. Qed.
Lemma fab_spec : forall p fl now ks, fab_b p fl now ks = true -> forced_as_before p fl now ks.
Proof.
  intros p fl now ks H F k I Q S. unfold fab_b in H. rewrite F in H. cbn [negb orb] in H. pose proof (proj1 (forallb_forall _ _) H k I) as G. cbv beta in G. rewrite Q in G.
  assert (E : in_state now KReady k || in_state now KActive k = true) by (destruct S as [S|S]; apply in_state_spec in S; rewrite S, ?orb_true_r; reflexivity). rewrite E in G. cbn [negb orb andb] in G. apply andb_true_iff in G. destruct G as [G1 G2]. apply eqb_prop in G2. split; [lia|exact G2].
Qed.
Lemma play_before : forall l now now' ks', 0 < now < 2 ^ 63 -> play fab_b l now [] = Some (now', ks') -> history forced_as_before now' ks'.
Proof. intros l now now' ks' B P. eapply play_history; [|apply h_start; exact B|exact P]. apply fab_spec. Qed.

Definition pol (alg : Z) (sts : bool) (zl kl : Z) : policy := mkpol false alg sts zl kl 100 10 5 2 0 false.
Definition norm : rflags := mkfl true false true false false.
Definition force_k : rflags := mkfl true true true false false.
Definition force_z : rflags := mkfl true false true true false.
Definition signed_b (now : Z) (ks : list key) : bool :=
  let zs := zone_keys now ks in
  existsb (fun k => existsb (fun z => (z_alg k =? z_alg z) && z_ksk k && z_public k && (z_active k || z_kplus k) && z_zsk z && (z_active z || z_zplus z)) zs) zs.
Lemma signed_spec : forall now ks, signed_at now ks <-> signed_b now ks = true.
Proof.
  intros now ks. unfold signed_at, signed_b. cbv zeta. rewrite existsb_exists. split.
  - intros (k & z & I & J & A & B & C & D & E & F). exists k. split; [exact I|]. apply existsb_exists. exists z. split; [exact J|]. rewrite B, C, D, E, F, A, Z.eqb_refl. reflexivity.
  - intros (k & I & H). apply existsb_exists in H. destruct H as (z & J & H). exists k, z. rewrite !andb_true_iff in H. destruct H as (((((H1 & H2) & H3) & H4) & H5) & H6). split; [exact I|]. split; [exact J|]. split; [lia|]. auto.
Qed.

(** A ZSK, a KSK and an algorithm are rolled over. *)
Definition ex_life : list event :=
  [ERoll (pol 8 false 50 0) norm; ETime 1001; EConfirm 3; ETime 1060; ERoll (pol 8 false 50 0) norm; ETime 1070; ERoll (pol 8 false 50 0) norm; ETime 1090; ERoll (pol 8 false 50 0) norm;
   ETime 1095; ERoll (pol 8 false 0 0) force_k; ETime 1105; ERoll (pol 8 false 0 0) norm; ETime 1110; EConfirm 3; ETime 1115; ERoll (pol 8 false 0 0) norm;
   ETime 1300; ERoll (pol 13 false 0 0) norm; ETime 1320; ERoll (pol 13 false 0 0) norm; ETime 1340; ERoll (pol 13 false 0 0) norm; EConfirm 3; ETime 1350; ERoll (pol 13 false 0 0) norm; ETime 1400; ERoll (pol 13 false 0 0) norm].
Definition ex_end : Z * list key := match play fab_b ex_life 1000 [] with Some x => x | None => (0, []) end.
Example c37_ex_history : history forced_as_before 1400 (snd ex_end) /\ history any_run 1400 (snd ex_end).
Proof.
  split; [apply (play_before ex_life 1000)|apply (play_any ex_life 1000)]; try lia; vm_compute; reflexivity.
Qed.
(** The keys of algorithm 8 have been retired and removed, those of algorithm 13 sign *)
Example c37_ex_states : map (fun k => (k_alg k, get_key_state k 1400)) (snd ex_end) = [(8, KRemoved); (8, KRemoved); (13, KActive); (13, KActive)].
Proof. vm_compute. reflexivity. Qed.
Example c37_ex_order : map life (snd ex_end) =
  [[1060; 0; 1060; 0; 1070; 1340; 0; 1343; 1350]; [1095; 0; 1095; 1105; 1110; 1340; 0; 1343; 1350]; [1300; 1300; 1320; 1340; 1340; 0; 0; 0; 0]; [1300; 1300; 1320; 0; 1340; 0; 0; 0; 0]].
Proof. vm_compute. reflexivity. Qed.
(** After the delay, a run deletes the old keys *)
Example c37_ex_delete : exists ks', key_rollover 20 good (pol 13 false 0 0) norm 1450 (snd ex_end) = Ok ks' /\ map k_alg ks' = [13; 13].
Proof. eexists. split; [vm_compute; reflexivity|vm_compute; reflexivity]. Qed.

(** *** Signing *)
(** The zone is signed at all times after the first run, if a KSK rollover is forced only when the policy still has the
    algorithm and the scheme of the KSKs in use. *)
Theorem c37_signed_partial : forall now ks, history forced_as_before now ks -> ks <> [] -> signed_at now ks.
Proof.
  intros now ks H N. destruct (history_inv _ _ _ H) as [B V]. destruct (history_signs now ks H) as [E|[S _]]; [contradiction|]. apply signs_signed; [lia|apply (in_keys _ _ V)|exact S].
Qed.
Example c37_ex_signed : snd ex_end <> [] /\ signed_at 1400 (snd ex_end).
Proof. split; [vm_compute; discriminate|apply signed_spec; vm_compute; reflexivity]. Qed.
(** Once there are keys, no run and no confirmation leaves the zone without any *)
Theorem c37_keys_remain_partial : forall now ks fuel e p fl ks', history forced_as_before now ks -> ks <> [] -> policy_ok p -> allow_all fl -> forced_as_before p fl now ks -> key_rollover fuel e p fl now ks = Ok ks' -> ks' <> [].
Proof.
  intros now ks fuel e p fl ks' H N PO HF OK R. destruct (history_inv _ _ _ H) as [B V]. destruct (history_signs now ks H) as [E|S]; [contradiction|]. pose proof (rollover_spec True fuel e p fl now ks B V HF ltac:(auto)) as RS. rewrite R in RS. destruct RS as [-> |[RS _]]; [exact N|].
  destruct (steps_sgn p now ks ks' B ltac:(apply PO) V RS (sgn_run p now ks S)) as [(k & _ & I & _) _]. intros ->. destruct I.
Qed.
(** Without the condition it is false: a KSK rollover forced in the first run after single-type signing was switched
    off makes a KSK without a ZSK; when it is confirmed, the old key stops signing and none is left. *)
Definition bad_scheme : list event :=
  [ERoll (pol 8 true 0 0) norm; ETime 1001; EConfirm 0; ETime 1100; ERoll (pol 8 false 0 0) force_k; ETime 1110; ERoll (pol 8 false 0 0) norm; ETime 1111; EConfirm 0].
Theorem c37_signed_refuted : exists now ks, history any_run now ks /\ ks <> [] /\ ~ signed_at now ks.
Proof.
  assert (P : exists ks, play (fun _ _ _ _ => true) bad_scheme 1000 [] = Some (1111, ks) /\ ks <> [] /\ signed_b 1111 ks = false) by (eexists; split; [vm_compute; reflexivity|split; [discriminate|vm_compute; reflexivity]]). destruct P as (ks & P & N & S).
  exists 1111, ks. split; [eapply play_any; [|exact P]; lia|]. split; [exact N|]. rewrite signed_spec, S. discriminate.
Qed.
(** The next run repairs it only after the publication of new keys: until then the zone is not signed. *)
Example c37_ex_unsigned : exists ks, play (fun _ _ _ _ => true) (bad_scheme ++ [ERoll (pol 8 false 0 0) norm; ETime 1117; ERoll (pol 8 false 0 0) norm]) 1000 [] = Some (1117, ks) /\ signed_b 1117 ks = false.
Proof. eexists. split; [vm_compute; reflexivity|vm_compute; reflexivity]. Qed.

(** *** Algorithms *)
(** Every algorithm with a published key has all its keys, as loading the keys demands (KNOT_DNSSEC_EMISSINGKEYTYPE
    otherwise): this is false of forced rollovers after the algorithm was changed, as they come before the
    algorithm rollover. *)
Definition bad_alg (fl : rflags) : list event := [ERoll (pol 8 false 0 0) norm; ETime 1001; EConfirm 0; ETime 1100; ERoll (pol 13 false 0 0) fl].
Theorem c37_algorithms_refuted : exists now ks, history any_run now ks /\ walk_algorithms (zone_keys now ks) = KNOT_DNSSEC_EMISSINGKEYTYPE.
Proof.
  assert (P : exists ks, play (fun _ _ _ _ => true) (bad_alg force_k) 1000 [] = Some (1100, ks) /\ walk_algorithms (zone_keys 1100 ks) = KNOT_DNSSEC_EMISSINGKEYTYPE) by (eexists; split; [vm_compute; reflexivity|vm_compute; reflexivity]). destruct P as (ks & P & W).
  exists 1100, ks. split; [eapply play_any; [|exact P]; lia|exact W].
Qed.
(** A forced ZSK rollover after a change of the algorithm never ends: the new ZSK has no KSK, the old one stays
    retire-active, and no further rollover starts. The keys cannot be loaded meanwhile. *)
Example c37_ex_stuck_alg : exists ks, play fab_b (bad_alg force_z ++ [ETime 1200; ERoll (pol 13 false 0 0) norm; ETime 9000000; ERoll (pol 13 false 50 50) norm]) 1000 [] = Some (9000000, ks) /\
  map (fun k => (k_alg k, k_ksk k, get_key_state k 9000000)) ks = [(8, true, KActive); (8, false, KRetireActive); (13, false, KActive)] /\
  walk_algorithms (zone_keys 9000000 ks) = KNOT_DNSSEC_EMISSINGKEYTYPE.
Proof. eexists. split; [vm_compute; reflexivity|]. split; [vm_compute; reflexivity|vm_compute; reflexivity]. Qed.
(** A forced ZSK rollover of a zone with single-type signing leaves a ZSK beside the key, and no further rollover starts. *)
Example c37_ex_stuck_scheme : exists ks, play fab_b [ERoll (pol 8 true 0 0) norm; ETime 1001; EConfirm 0; ETime 1100; ERoll (pol 8 true 0 0) force_z; ETime 1200; ERoll (pol 8 true 0 0) norm; ETime 9000000; ERoll (pol 8 true 50 50) norm] 1000 [] = Some (9000000, ks) /\
  map (fun k => (k_ksk k, k_zsk k, get_key_state k 9000000)) ks = [(true, true, KActive); (false, true, KActive)].
Proof. eexists. split; [vm_compute; reflexivity|vm_compute; reflexivity]. Qed.

(** *** Delays *)
(** What a run does with a key that was there before the run, it does after the delays: a ZSK becomes active, and a KSK
    ready, when its DNSKEY is known everywhere; a key of a new algorithm is published when its signatures are known
    everywhere; a retired key is removed when its signatures, and then its DNSKEY, are not needed any more. A KSK is
    retired only when the confirmation of another one has timed out. *)
Theorem c37_waits : forall now ks fuel e p fl ks' k', history any_run now ks -> policy_ok p -> no_wrap p -> allow_all fl -> key_rollover fuel e p fl now ks = Ok ks' -> In k' ks' ->
  (exists k, In k ks /\ later k k' /\ waited p now ks k k') \/ t_created (k_t k') = now.
Proof.
  intros now ks fuel e p fl ks' k' H PO NW HF R I. destruct (history_inv _ _ _ H) as [B V]. pose proof (history_nofut _ _ _ H) as NF. pose proof (rollover_spec False fuel e p fl now ks B V HF ltac:(tauto)) as S. rewrite R in S. destruct S as [-> |[S _]].
  - left. exists k'. split; [exact I|]. split; [apply later_refl|apply waited_refl].
  - destruct (steps_waits _ _ _ _ _ B PO NW V NF S k' I) as [(k & J & L & W & _)|C]; [left; exists k; auto|right; exact C].
Qed.
(** Keys created by a run wait as well, unless they are the first ones. *)
Theorem c37_new_waits_partial : forall now ks fuel e p fl ks' k', history forced_as_before now ks -> ks <> [] -> policy_ok p -> no_wrap p -> allow_all fl -> forced_as_before p fl now ks ->
  key_rollover fuel e p fl now ks = Ok ks' -> In k' ks' ->
  exists k, (In k ks \/ t_created (k_t k) = now /\ t_ready (k_t k) = 0 /\ t_active (k_t k) = 0 /\ t_retire_active (k_t k) = 0 /\ t_remove (k_t k) = 0) /\ later k k' /\ waited p now ks k k'.
Proof.
  intros now ks fuel e p fl ks' k' H N PO NW HF OK R I. destruct (history_inv _ _ _ H) as [B V]. pose proof (history_nofut _ _ _ H) as NF. destruct (history_signs now ks H) as [E|S]; [contradiction|]. pose proof (rollover_spec True fuel e p fl now ks B V HF ltac:(auto)) as RS. rewrite R in RS. destruct RS as [-> |[RS _]].
  - exists k'. split; [auto|]. split; [apply later_refl|apply waited_refl].
  - destruct (steps_new_waits p now ks ks' B PO NW V NF (sgn_run p now ks S) RS k' I) as [(k & J & L & W & _)|(g & G1 & G2 & G3 & G4 & L & W & _)]; [exists k; auto|]. exists g. unfold tail0 in G4. split; [right; repeat match goal with |- _ /\ _ => split end; auto; apply G4|auto].
Qed.
(** Without a time-out, no run retires a KSK in use: only a confirmation does *)
Theorem c37_ksk_stays : forall now ks fuel e p fl ks' k', history any_run now ks -> policy_ok p -> no_wrap p -> allow_all fl -> p_sbm_timeout p = 0 -> key_rollover fuel e p fl now ks = Ok ks' ->
  In k' ks' -> k_ksk k' = true -> t_created (k_t k') < now -> t_retire_active (k_t k') <> 0 -> exists k, In k ks /\ later k k' /\ t_retire_active (k_t k) = t_retire_active (k_t k').
Proof.
  intros now ks fuel e p fl ks' k' H PO NW HF TO R I Q C RA. destruct (c37_waits _ _ _ _ _ _ _ _ H PO NW HF R I) as [(k & J & L & W)|E]; [|lia]. exists k. split; [exact J|]. split; [exact L|]. destruct (Z.eq_dec (t_retire_active (k_t k)) 0) as [E|E].
  - exfalso. destruct W as (_ & _ & _ & _ & W). cbv zeta in W. destruct W as [W _]; auto; [destruct L as (_ & L & _); congruence|lia].
  - destruct L as (_ & _ & _ & L). unfold life in L. cbv zeta in L. repeat match goal with L : Forall2 _ (_ :: _) _ |- _ => inversion L; subst; clear L end. symmetry. auto.
Qed.
(** The first run after a ZSK was published by another: it becomes active after the sum of the two delays, not before *)
Definition ex_roll : list event := [ERoll (pol 8 false 50 0) norm; ETime 1001; EConfirm 3; ETime 1060; ERoll (pol 8 false 50 0) norm].
Example c37_ex_waits : exists ks, (forall now, 1060 <= now < 2 ^ 63 -> history any_run now ks) /\ no_wrap (pol 8 false 50 0) /\
  (exists a, key_rollover 20 good (pol 8 false 50 0) norm 1066 ks = Ok a /\ map (fun k => t_active (k_t k)) a = map (fun k => t_active (k_t k)) ks) /\
  exists b, key_rollover 20 good (pol 8 false 50 0) norm 1067 ks = Ok b /\ map (fun k => t_active (k_t k)) b = [1001; 1000; 1067].
Proof.
  exists (match play (fun _ _ _ _ => true) ex_roll 1000 [] with Some x => snd x | None => [] end). split; [|split; [|split]].
  - intros now B. apply (h_time _ 1060); [|exact B]. apply (play_any ex_roll 1000); [lia|vm_compute; reflexivity].
  - vm_compute. auto.
  - eexists. split; [vm_compute; reflexivity|vm_compute; reflexivity].
  - eexists. split; [vm_compute; reflexivity|vm_compute; reflexivity].
Qed.
(** The delays are summed up in 32 bits: with a propagation delay of 2^31-1 and a TTL of 2^31+1 a new ZSK becomes active at once *)
Definition pol_wrap : policy := mkpol false 8 false 50 0 100 10 (2 ^ 31 + 1) (2 ^ 31 - 1) 0 false.
Theorem c37_waits_refuted : exists now ks fuel e p fl ks' k', history any_run now ks /\ policy_ok p /\ allow_all fl /\ key_rollover fuel e p fl now ks = Ok ks' /\ In k' ks' /\
  k_ksk k' = false /\ t_publish (k_t k') = t_active (k_t k') /\ t_active (k_t k') <> 0 /\ Forall (fun k => t_active (k_t k) <> t_active (k_t k')) ks.
Proof.
  exists 1060, (match play (fun _ _ _ _ => true) [ERoll pol_wrap norm; ETime 1001; EConfirm 3; ETime 1060] 1000 [] with Some x => snd x | None => [] end), 20%nat, good, pol_wrap, norm.
  exists (match key_rollover 20 good pol_wrap norm 1060 (match play (fun _ _ _ _ => true) [ERoll pol_wrap norm; ETime 1001; EConfirm 3; ETime 1060] 1000 [] with Some x => snd x | None => [] end) with Ok x => x | _ => [] end).
  eexists. split; [apply (play_any [ERoll pol_wrap norm; ETime 1001; EConfirm 3; ETime 1060] 1000); [lia|vm_compute; reflexivity]|].
  split; [unfold policy_ok, is_u32; cbn; lia|]. split; [split; reflexivity|]. split; [vm_compute; reflexivity|]. split; [vm_compute; right; right; left; reflexivity|].
  split; [reflexivity|]. split; [reflexivity|]. split; [cbn; lia|vm_compute; repeat constructor; discriminate].
Qed.

Print Assumptions c37_ordered.
Print Assumptions c37_removed_after_retired.
Print Assumptions c37_states.
Print Assumptions c37_no_ub.
Print Assumptions c37_run_keeps_keys.
Print Assumptions c37_confirm_keeps_keys.
Print Assumptions c37_signed_partial.
Print Assumptions c37_keys_remain_partial.
Print Assumptions c37_signed_refuted.
Print Assumptions c37_algorithms_refuted.
Print Assumptions c37_waits.
Print Assumptions c37_new_waits_partial.
Print Assumptions c37_ksk_stays.
Print Assumptions c37_waits_refuted.
