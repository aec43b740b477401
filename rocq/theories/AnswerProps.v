(** C40: following aliases ends. C58: what queries are answered with. *)
From Verif Require Import Base RdatasetModel RdatasetSpec RdatasetProofs RdatasetProps NodeModel NodeProps ZoneModel ZoneProofs ZoneView ZoneFold ZoneExamples ZoneTree ZoneTreeProps AnswerModel AnswerSpec AnswerSearch AnswerProofs AnswerProofs2 AnswerProofs3 AnswerFlags.

(** ** C40 *)
(** Whatever the zone contains, cycles of aliases too, and whatever the packet takes: the loop ends after five more
    steps (with more fuel the result is the same), no assertion fails and nothing outside is read, and the response has
    at most twelve RRsets in its answer section and one in the authority section. *)
Theorem c40_ends : forall z w v qname t, sane z -> clean (z_apex z) z w -> plain qname -> below qname (z_apex z) ->
  exists st q, (forall fuel, (5 <= fuel)%nat -> answer_query fuel z w v qname t = Ok (st, q)) /\ st <> FOLLOW /\ st <> BEGIN /\
  zlen (p_answer (q_pkt q)) <= 12 /\ zlen (p_authority (q_pkt q)) <= 1.
Proof.
  intros z w v qn t S C HP HB. apply clean_flagged in C. destruct (query_runs z w v qn t 5 S C HP HB ltac:(lia)) as (st & q & E & (L1 & L2) & H1 & H2). exists st, q. split; [|auto]. intros fuel HF. eapply query_more; eauto.
Qed.

(** ** C58 *)
(** The flag with which wildcards are searched for tells, after every history of changes of a zone in which the wildcard
    below the apex is no name of the NSEC3 tree, whether the name has a wildcard child. *)
Theorem c58_wildcard_flag_partial : forall a z w, clean a z w -> forall n, exists_ z n -> (w n = true <-> exists_ z (star_of n)).
Proof. intros a z w H. exact (clean_flagged a z w H). Qed.
(** The search gives the name if it exists and its closest encloser otherwise. *)
Theorem c58_search : forall z n, sane z -> plain n ->
  (below n (z_apex z) /\ ((exists_ z n /\ find_dname z n = Ok (Some (Some n, n))) \/
                          (~ exists_ z n /\ exists c, encloser z n c /\ find_dname z n = Ok (Some (None, c))))) \/
  (~ below n (z_apex z) /\ find_dname z n = Ok None).
Proof. exact search. Qed.
(** The response is what the zone has for the question: with room in the packet, no DNAME at a wildcard and no name that
    grows too long, the answer section has the RRsets of the resolution in their order, and the code, the authority
    section and the AA bit are those of its ending. *)
Theorem c58_answer_partial : forall z w v qname t fuel, sane z -> clean (z_apex z) z w -> roomy v -> no_wild_dname z -> plain qname -> below qname (z_apex z) -> (5 <= fuel)%nat ->
  exists st q l e, answer_query fuel z w v qname t = Ok (st, q) /\ resolves z t [] qname l e /\
  (q_aa q = false <-> l = [] /\ exists c, e = Ref c) /\
  match e with
  | Answered | Outside | Looped | Limit => st = HIT /\ q_rcode q = RC_NOERROR /\ map strip (p_authority (q_pkt q)) = []
  | Ref c => st = DELEG /\ q_rcode q = RC_NOERROR /\ exists r, owns z c 2 r /\ map strip (p_authority (q_pkt q)) = [(c, r)]
  | Empty => st = NODATA /\ q_rcode q = RC_NOERROR /\ exists r, owns z (z_apex z) 6 r /\ map strip (p_authority (q_pkt q)) = [(z_apex z, r)]
  | Nonexistent => st = MISS /\ q_rcode q = RC_NXDOMAIN /\ exists r, owns z (z_apex z) 6 r /\ map strip (p_authority (q_pkt q)) = [(z_apex z, r)]
  | Overlong => True
  end /\
  (e <> Overlong -> map strip (p_answer (q_pkt q)) = l) /\
  (e = Overlong -> exists more, map strip (p_answer (q_pkt q)) = l ++ more).
Proof.
  intros z w v qn t fuel S C HV HW HP HB Hf. apply clean_flagged in C. destruct (query_done z w v qn t fuel S C HV HW HP HB Hf) as (st & q & l & e & E & R & AA & F & H1 & H2). exists st, q, l, e. split; [exact E|]. split; [exact R|]. split; [exact AA|]. split; [destruct e; exact F|]. split; assumption.
Qed.

(** ** Cases *)
Definition v0 : env := mkenv (fun _ _ => KNOT_EOK) (fun _ _ => KNOT_EOK) (fun _ => true) true.
Example v0_roomy : roomy v0. Proof. repeat split; reflexivity. Qed.
(** Building a zone with its flags; [chk]: the wildcard below the apex is not in the NSEC3 tree *)
Fixpoint grow (chk : bool) (a : name) (l : list rrset) (z : contents) (w : name -> bool) : res (contents * (name -> bool)) :=
  match l with
  | [] => Ok (z, w)
  | s :: l => let* (_, z') := contents_add_rr z s in if chk && AnswerModel.here z' true (star_of a) then UB else grow chk a l z' (flag_add z z' w)
  end.
Lemma grow_history : forall a l z w z' w', history a z w -> Forall (proper a) l -> grow false a l z w = Ok (z', w') -> history a z' w'.
Proof.
  intros a. induction l as [|s l IH]; intros z w z' w' H HF E; cbn [grow] in E; [injection E as <- <-; auto|]. destruct (contents_add_rr z s) as [[ret z1]|e| |] eqn:E1; cbn [rbind andb] in E; try discriminate. eapply (IH z1); [|eapply Forall_inv_tail; eauto|exact E]. eapply h_add; eauto. exact (Forall_inv HF).
Qed.
Lemma grow_clean : forall a l z w z' w', clean a z w -> Forall (proper a) l -> grow true a l z w = Ok (z', w') -> clean a z' w'.
Proof.
  intros a. induction l as [|s l IH]; intros z w z' w' H HF E; cbn [grow] in E; [injection E as <- <-; auto|]. destruct (contents_add_rr z s) as [[ret z1]|e| |] eqn:E1; cbn [rbind andb] in E; try discriminate. destruct (AnswerModel.here z1 true (star_of a)) eqn:EH; [discriminate|]. eapply (IH z1); [|eapply Forall_inv_tail; eauto|exact E]. eapply n_add; eauto; [exact (Forall_inv HF)|]. apply here_not. exact EH.
Qed.
Lemma clean_history : forall a z w, clean a z w -> history a z w.
Proof. intros a z w H. induction H; [constructor|eapply h_add; eauto|eapply h_remove; eauto|eapply h_apply_add; eauto|eapply h_apply_remove; eauto]. Qed.
Lemma history_reach : forall a z w, history a z w -> reachable a z.
Proof. intros a z w H. induction H as [| |z w s z' H IH P E| |]; [constructor|eapply r_add; eauto|exact (r_remove a z s z' IH P E)|eapply r_apply_add; eauto|eapply r_apply_remove; eauto]. Qed.
(** Deciding whether a zone is sane *)
Definition plainb (o : name) : bool := forallb (fun l : list Z => (1 <=? zlen l) && (zlen l <=? 63) && forallb (fun b => negb (b =? 0)) l) o.
Lemma plainb_spec : forall o, plainb o = true -> plain o.
Proof. intros o H. unfold plainb in H. rewrite forallb_forall in H. apply Forall_forall. intros l Hl. specialize (H l Hl). rewrite !andb_true_iff in H. destruct H as [H1 H2]. split; [lia|]. apply Forall_forall. intros b Hb. rewrite forallb_forall in H2. specialize (H2 b Hb). lia. Qed.
Definition rr_sane (r : rr_data) : bool :=
  (if (rr_type r =? 5) || (rr_type r =? 39) then
     match rdataset_at (rr_rrs r) 0 with
     | Ok d => match labels_at (length d) d with Some m => plainb m && bytes_eqb d (wire_of m) | None => false end
     | _ => false
     end
   else true) && (size (rr_rrs r) <? 2 ^ 31).
Definition saneb (z : contents) : bool :=
  forallb plainb (all_names z) && existsb (fun r => rr_type r =? 6) (zn_rrs (z_apexn z)) &&
  forallb (fun x => forallb rr_sane (zn_rrs (snd x))) ((z_apex z, z_apexn z) :: z_nodes z).
Lemma get_all : forall z o n, ZoneModel.zget z false o = Some n -> In (o, n) ((z_apex z, z_apexn z) :: z_nodes z).
Proof.
  intros z o n H. unfold ZoneModel.zget in H. destruct (name_eqb o (z_apex z)) eqn:E; [apply neqb_spec in E; injection H as <-; left; congruence|]. right. revert H. clear. induction (z_nodes z) as [|[k m] l IH]; cbn [tget]; [discriminate|]. destruct (name_eqb k o) eqn:E; [|right; auto]. apply neqb_spec in E. intros H. injection H as H. left. congruence.
Qed.
Lemma saneb_spec : forall z, reachable (z_apex z) z -> saneb z = true -> sane z.
Proof.
  intros z R H. unfold saneb in H. rewrite !andb_true_iff in H. destruct H as [[H1 H2] H3]. rewrite forallb_forall in H1, H3.
  assert (OW : forall o t r, owns z o t r -> rr_sane r = true /\ rr_type r = t). { intros o t r (x & E & HI & HT). apply get_all in E. specialize (H3 _ E). cbn [snd] in H3. rewrite forallb_forall in H3. auto. }
  constructor; auto.
  - intros o HO. apply in_all in HO. apply plainb_spec. auto.
  - apply existsb_exists in H2. destruct H2 as (r & HI & HT). exists r, (z_apexn z). split; [unfold ZoneModel.zget; rewrite neqb_refl; auto|]. split; auto. lia.
  - intros o t r HO HT. destruct (OW o t r HO) as [X HT2]. unfold rr_sane in X. rewrite HT2 in X. apply andb_true_iff in X. destruct X as [X _]. replace ((t =? 5) || (t =? 39)) with true in X by lia. destruct (rdataset_at (rr_rrs r) 0) as [d|e| |] eqn:ED; try discriminate. destruct (labels_at (length d) d) as [m|]; [|discriminate]. apply andb_true_iff in X. destruct X as [X1 X2]. apply beqb_spec in X2. exists m. split; [apply plainb_spec; auto|]. congruence.
  - intros o r HO. destruct (OW o 46 r HO) as [X _]. unfold rr_sane in X. apply andb_true_iff in X. lia.
Qed.
Definition no_wild_dnameb (z : contents) : bool := forallb (fun x => negb (is_wildcard (fst x)) || negb (existsb (fun r => rr_type r =? 39) (zn_rrs (snd x)))) ((z_apex z, z_apexn z) :: z_nodes z).
Lemma no_wild_spec : forall z, no_wild_dnameb z = true -> no_wild_dname z.
Proof.
  intros z H c (r & x & E & HI & HT). unfold no_wild_dnameb in H. rewrite forallb_forall in H. apply get_all in E. specialize (H _ E). cbn [fst snd] in H. change (is_wildcard (star_of c)) with true in H. cbn [negb orb] in H. apply negb_true_iff in H. assert (X : existsb (fun r => rr_type r =? 39) (zn_rrs x) = true) by (apply existsb_exists; exists r; split; auto; lia). congruence.
Qed.

(** The zone a.: aliases in a row, a loop, wildcards, a DNAME and a delegation *)
Definition A : name := [[97]].
Definition nm (l : Z) (o : name) : name := [l] :: o.
Definition B := nm 98 A. Definition C := nm 99 A. Definition D := nm 100 A. Definition E_ := nm 101 A. Definition L := nm 108 A. Definition S_ := nm 115 A. Definition W := nm 119 A. Definition X := nm 120 A.
Definition soa_rr := rs A 6 3600 [[0; 0; 0; 0; 0; 1; 0; 0; 0; 1; 0; 0; 0; 1; 0; 0; 0; 1; 0; 0; 0; 1]].
Definition zone_rrs : list rrset :=
  [soa_rr; rs B 5 3600 [wire_of C]; rs C 5 3600 [wire_of (nm 113 W)]; rs (star_of W) 1 3600 [[10; 0; 0; 1]]; rs L 5 3600 [wire_of L];
   rs D 39 3600 [wire_of E_]; rs (nm 120 E_) 1 3600 [[10; 0; 0; 2]]; rs S_ 2 3600 [wire_of (nm 110 S_)]; rs (nm 110 S_) 1 3600 [[10; 0; 0; 3]]].
Definition zw : contents * (name -> bool) := match grow true A zone_rrs (contents_new A) (fun _ => false) with Ok x => x | _ => (contents_new A, fun _ => false) end.
Definition shows (z : contents) (w : name -> bool) (qn : name) (t : Z) : res (state * Z * bool * list (name * Z) * list (name * Z)) :=
  match answer_query 5 z w v0 qn t with
  | Ok (st, q) => Ok (st, q_rcode q, q_aa q, map (fun e => (e_owner e, rr_type (e_rr e))) (p_answer (q_pkt q)), map (fun e => (e_owner e, rr_type (e_rr e))) (p_authority (q_pkt q)))
  | Err e => Err e | UB => UB | OOF => OOF
  end.
Ltac pgex k := match goal with |- proper ?a (rs ?o ?t ?ttl ?l) => let l' := eval vm_compute in l in change (proper a (rs o t ttl l')); gex k end.
Example zone_proper : Forall (proper A) zone_rrs.
Proof. unfold zone_rrs, soa_rr. repeat (constructor; [pgex false|]). constructor. Qed.
Example c58_case : sane (fst zw) /\ clean A (fst zw) (snd zw) /\ z_apex (fst zw) = A /\ no_wild_dname (fst zw) /\
  (* b. is an alias of c., that of q.w., a name made by the wildcard *)
  shows (fst zw) (snd zw) B 1 = Ok (HIT, 0, true, [(B, 5); (C, 5); (nm 113 W, 1)], []) /\
  (* an alias of itself *)
  shows (fst zw) (snd zw) L 1 = Ok (HIT, 0, true, [(L, 5)], []) /\
  (* names below the DNAME *)
  shows (fst zw) (snd zw) (nm 120 D) 1 = Ok (HIT, 0, true, [(D, 39); (nm 120 D, 5); (nm 120 E_, 1)], []) /\
  shows (fst zw) (snd zw) (nm 121 D) 1 = Ok (MISS, 3, true, [(D, 39); (nm 121 D, 5)], [(A, 6)]) /\
  (* at and below the delegation *)
  shows (fst zw) (snd zw) (nm 110 S_) 1 = Ok (DELEG, 0, false, [], [(S_, 2)]) /\
  shows (fst zw) (snd zw) S_ 43 = Ok (NODATA, 0, true, [], [(A, 6)]) /\
  (* a name without records, and none *)
  shows (fst zw) (snd zw) E_ 1 = Ok (NODATA, 0, true, [], [(A, 6)]) /\
  shows (fst zw) (snd zw) X 1 = Ok (MISS, 3, true, [], [(A, 6)]).
Proof.
  assert (CL : clean A (fst zw) (snd zw)). { apply (grow_clean A zone_rrs (contents_new A) (fun _ => false)); [constructor|apply zone_proper|vm_compute; reflexivity]. }
  split; [apply saneb_spec; [apply (history_reach A _ (snd zw)); apply clean_history; exact CL|vm_compute; reflexivity]|]. split; [exact CL|]. split; [vm_compute; reflexivity|]. split; [apply no_wild_spec; vm_compute; reflexivity|].
  repeat split; vm_compute; reflexivity.
Qed.

(** ** What does not hold *)
(** A name too long to be made from a DNAME is to be answered with YXDOMAIN and nothing else (RFC 6672): but the server
    goes on with the target of the DNAME, and answers NXDOMAIN or adds records with another owner. *)
Definition T : name := repeat (repeat 116 63) 3 ++ A.
Definition long_rrs (l : list rrset) : contents * (name -> bool) := match grow true A ([soa_rr; rs D 39 3600 [wire_of T]] ++ l) (contents_new A) (fun _ => false) with Ok x => x | _ => (contents_new A, fun _ => false) end.
Definition QL : name := repeat 113 63 :: D.
Theorem c58_overlong_refuted :
  (exists z w r q, sane z /\ clean A z w /\ resolves z 1 [] QL [(D, r)] Overlong /\ answer_query 5 z w v0 QL 1 = Ok (MISS, q) /\ q_rcode q = RC_NXDOMAIN) /\
  (exists z w r q, sane z /\ clean A z w /\ resolves z 1 [] QL [(D, r)] Overlong /\ answer_query 5 z w v0 QL 1 = Ok (HIT, q) /\ q_rcode q = RC_YXDOMAIN /\
     map (fun e => (e_owner e, rr_type (e_rr e))) (p_answer (q_pkt q)) = [(D, 39); (T, 1)]).
Proof.
  assert (PR : proper A (rs D 39 3600 [wire_of T])) by pgex false. assert (PS : proper A soa_rr) by gex false. assert (PT : proper A (rs T 1 3600 [[10; 0; 0; 1]])) by gex false.
  assert (G : forall l, Forall (proper A) l -> (exists x, grow true A ([soa_rr; rs D 39 3600 [wire_of T]] ++ l) (contents_new A) (fun _ => false) = Ok x) -> clean A (fst (long_rrs l)) (snd (long_rrs l))).
  { intros l HL ((z' & w') & E). unfold long_rrs. rewrite E. apply (grow_clean A _ _ _ _ _ (n_new A)) in E; auto. cbn [app]. constructor; auto. }
  assert (R : forall l, sane (fst (long_rrs l)) -> z_apex (fst (long_rrs l)) = A -> encloser (fst (long_rrs l)) QL D -> AnswerModel.here (fst (long_rrs l)) false QL = false -> AnswerModel.here (fst (long_rrs l)) false (star_of D) = false ->
    deleg (fst (long_rrs l)) D || nonauth (fst (long_rrs l)) D = false -> forall r, owns (fst (long_rrs l)) D 39 r -> single r (wire_of T) -> resolves (fst (long_rrs l)) 1 [] QL [(D, r)] Overlong).
  { intros l S EA EN N1 N2 DL r HO HS. destruct (flags_spec (fst (long_rrs l)) D S) as (_ & F & _); [rewrite EA; exists [[100]]; reflexivity|]. apply (e_subst_long _ _ [] QL D r [repeat 113 63] T).
    - rewrite EA. exists [repeat 113 63; [100]]. reflexivity.
    - eapply j_subst; [exact EN| | | |exact HO]; [apply (here_not _ false) in N1; exact N1|apply (here_not _ false) in N2; exact N2|intros HD; apply F in HD; congruence].
    - vm_compute; reflexivity.
    - reflexivity.
    - exists (wire_of T), []. split; [exact HS|rewrite app_nil_r; reflexivity].
    - vm_compute; reflexivity.
    - right. split; [intros []|reflexivity]. }
  assert (EN : forall l, (AnswerModel.here (fst (long_rrs l)) false D = true) -> AnswerModel.here (fst (long_rrs l)) false QL = false -> encloser (fst (long_rrs l)) QL D).
  { intros l H1 H2. apply (here_ex _ false) in H1. apply (here_not _ false) in H2. split; [exact H1|]. split; [exists [repeat 113 63]; reflexivity|]. intros a HE ([|x p] & HB); [exfalso; apply H2; rewrite HB; exact HE|]. cbn [app] in HB. injection HB as _ HB. exists p. exact HB. }
  split.
  - assert (CL : clean A (fst (long_rrs [])) (snd (long_rrs []))) by (apply G; [constructor|eexists; vm_compute; reflexivity]). assert (S : sane (fst (long_rrs []))) by (apply saneb_spec; [apply (history_reach A _ (snd (long_rrs []))); apply clean_history; exact CL|vm_compute; reflexivity]).
    exists (fst (long_rrs [])), (snd (long_rrs [])). eexists. eexists. split; [exact S|]. split; [exact CL|]. split; [apply R; [exact S|vm_compute; reflexivity|apply EN; vm_compute; reflexivity|vm_compute; reflexivity|vm_compute; reflexivity|vm_compute; reflexivity| |]|].
    + eexists. split; [vm_compute; reflexivity|]. split; [left; reflexivity|reflexivity].
    + vm_compute; reflexivity.
    + split; vm_compute; reflexivity.
  - set (l := [rs T 1 3600 [[10; 0; 0; 1]]]). assert (CL : clean A (fst (long_rrs l)) (snd (long_rrs l))) by (apply G; [constructor; auto|eexists; vm_compute; reflexivity]). assert (S : sane (fst (long_rrs l))) by (apply saneb_spec; [apply (history_reach A _ (snd (long_rrs l))); apply clean_history; exact CL|vm_compute; reflexivity]).
    exists (fst (long_rrs l)), (snd (long_rrs l)). eexists. eexists. split; [exact S|]. split; [exact CL|]. split; [apply R; [exact S|vm_compute; reflexivity|apply EN; vm_compute; reflexivity|vm_compute; reflexivity|vm_compute; reflexivity|vm_compute; reflexivity| |]|].
    + eexists. split; [vm_compute; reflexivity|]. split; [left; reflexivity|reflexivity].
    + vm_compute; reflexivity.
    + split; [vm_compute; reflexivity|]. split; vm_compute; reflexivity.
Qed.
(** A DNAME at a wildcard that answers a query after an alias goes out with the owner of the wildcard, not with the name
    in question. *)
Definition wd_rrs : list rrset := [soa_rr; rs C 5 3600 [wire_of (nm 113 W)]; rs (star_of W) 39 3600 [wire_of E_]].
Definition wd : contents * (name -> bool) := match grow true A wd_rrs (contents_new A) (fun _ => false) with Ok x => x | _ => (contents_new A, fun _ => false) end.
Theorem c58_wild_dname_refuted : exists z w q r1 r2, sane z /\ clean A z w /\ resolves z 39 [] C [(C, r1); (nm 113 W, r2)] Answered /\
  answer_query 5 z w v0 C 39 = Ok (HIT, q) /\ map strip (p_answer (q_pkt q)) = [(C, r1); (star_of W, r2)].
Proof.
  assert (CL : clean A (fst wd) (snd wd)). { apply (grow_clean A wd_rrs (contents_new A) (fun _ => false)); [constructor| |vm_compute; reflexivity]. unfold wd_rrs, soa_rr. repeat (constructor; [pgex false|]). constructor. }
  assert (S : sane (fst wd)) by (apply saneb_spec; [apply (history_reach A _ (snd wd)); apply clean_history; exact CL|vm_compute; reflexivity]).
  assert (ND : forall o, below o A -> deleg (fst wd) o || nonauth (fst wd) o = false -> ~ delegated (fst wd) o). { intros o HB H HD. destruct (flags_spec (fst wd) o S HB) as (_ & F & _). apply F in HD. congruence. }
  exists (fst wd), (snd wd). eexists. eexists. eexists. split; [exact S|]. split; [exact CL|]. split; [|split; [vm_compute; reflexivity|vm_compute; reflexivity]].
  eapply e_alias with (m := nm 113 W).
  - exists [[99]]. reflexivity.
  - eapply j_alias; [apply s_self; apply (here_ex _ false); vm_compute; reflexivity|intros [HD _]; revert HD; apply ND; [exists [[99]]; reflexivity|vm_compute; reflexivity]|unfold at_alias; lia|]. eexists. split; [vm_compute; reflexivity|]. split; [left; reflexivity|reflexivity].
  - vm_compute; reflexivity.
  - intros [].
  - eexists. exists []. split; [vm_compute; reflexivity|reflexivity].
  - apply e_data; [exists [[113]; [119]]; reflexivity|]. eapply j_data with (s := star_of W).
    + apply s_wild.
      * apply (here_not _ false); vm_compute; reflexivity.
      * split; [apply (here_ex _ false); vm_compute; reflexivity|]. split; [exists [[113]]; reflexivity|]. intros a HE ([|x p] & HB); [cbn [app] in HB; subst a; exfalso; apply HE; vm_compute; reflexivity|]. cbn [app] in HB. injection HB as _ HB. exists p. exact HB.
      * apply (here_ex _ false); vm_compute; reflexivity.
    + intros [HD _]. revert HD. apply ND; [exists [[42]; [119]]; reflexivity|vm_compute; reflexivity].
    + right. intros (r & x & HG & HI & HT). vm_compute in HG. injection HG as <-. cbn [zn_rrs In] in HI. destruct HI as [<-|[]]. discriminate.
    + lia.
    + eexists. split; [vm_compute; reflexivity|]. split; [left; reflexivity|reflexivity].
Qed.
(** An NSEC3 record at the wildcard below the apex sets the flag of the apex: a query for a name that does not exist makes
    the server use a node that is not there. Its removal clears the flag though there is a wildcard: the name it stands
    for is said not to exist. *)
Definition n3 : rrset := rs (star_of A) 50 3600 [[1; 0; 0; 0; 0; 1; 170]].
Definition n3z : contents * (name -> bool) := match grow false A [soa_rr; n3] (contents_new A) (fun _ => false) with Ok x => x | _ => (contents_new A, fun _ => false) end.
Definition n3w : contents * (name -> bool) := match grow false A [soa_rr; rs (star_of A) 1 3600 [[10; 0; 0; 1]]; n3] (contents_new A) (fun _ => false) with Ok x => x | _ => (contents_new A, fun _ => false) end.
Theorem c58_nsec3_wildcard_refuted :
  (exists z w, sane z /\ history A z w /\ answer_query 5 z w v0 X 1 = UB) /\
  (exists z w q r, sane z /\ history A z w /\ judged z 1 X (Data r) /\ answer_query 5 z w v0 X 1 = Ok (MISS, q) /\ q_rcode q = RC_NXDOMAIN).
Proof.
  assert (P3 : proper A n3) by (gex true; discriminate). assert (PS : proper A soa_rr) by gex false. assert (PA : proper A (rs (star_of A) 1 3600 [[10; 0; 0; 1]])) by gex false. split.
  - assert (H : history A (fst n3z) (snd n3z)). { apply (grow_history A [soa_rr; n3] (contents_new A) (fun _ => false)); [constructor|constructor; [auto|constructor; auto]|vm_compute; reflexivity]. }
    exists (fst n3z), (snd n3z). split; [apply saneb_spec; [apply (history_reach A _ (snd n3z)); exact H|vm_compute; reflexivity]|]. split; [exact H|]. vm_compute. reflexivity.
  - assert (H : history A (fst n3w) (snd n3w)). { apply (grow_history A [soa_rr; rs (star_of A) 1 3600 [[10; 0; 0; 1]]; n3] (contents_new A) (fun _ => false)); [constructor|repeat (constructor; [auto|]); constructor|vm_compute; reflexivity]. }
    set (z := match contents_remove_rr (fst n3w) n3 with Ok z => z | _ => contents_new A end). assert (H2 : history A z (flag_del (fst n3w) z (snd n3w))) by (apply (h_remove A (fst n3w) (snd n3w) n3 z H P3); vm_compute; reflexivity).
    assert (S : sane z) by (apply saneb_spec; [apply (history_reach A _ _ H2)|vm_compute; reflexivity]).
    exists z, (flag_del (fst n3w) z (snd n3w)). eexists. eexists. split; [exact S|]. split; [exact H2|]. split; [|split; vm_compute; reflexivity]. eapply j_data with (s := star_of A).
    + apply s_wild.
      * apply (here_not _ false); vm_compute; reflexivity.
      * split; [apply (here_ex _ false); vm_compute; reflexivity|]. split; [exists [[120]]; reflexivity|]. intros a HE ([|x p] & HB); [cbn [app] in HB; subst a; exfalso; apply HE; vm_compute; reflexivity|]. cbn [app] in HB. injection HB as _ HB. exists p. exact HB.
      * apply (here_ex _ false); vm_compute; reflexivity.
    + intros [HD _]. destruct (flags_spec z (star_of A) S) as (_ & F & _); [exists [[42]]; reflexivity|]. apply F in HD. vm_compute in HD. discriminate.
    + right. intros (r & x & HG & HI & HT). vm_compute in HG. injection HG as <-. cbn [zn_rrs In] in HI. destruct HI as [<-|[]]. discriminate.
    + lia.
    + eexists. split; [vm_compute; reflexivity|]. split; [left; reflexivity|reflexivity].
Qed.
Print Assumptions c40_ends. Print Assumptions c58_wildcard_flag_partial. Print Assumptions c58_search. Print Assumptions c58_answer_partial.
Print Assumptions c58_overlong_refuted. Print Assumptions c58_wild_dname_refuted. Print Assumptions c58_nsec3_wildcard_refuted.
