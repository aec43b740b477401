(** C66: denial of existence with NSEC. *)
From Verif Require Import Base BitmapModel DnameSpec DnameProofs3 NsecModel NsecSpec NsecProofs NsecProofs2 NsecProofs3 NsecProofs5 NsecProofs6 NsecProps DenialSpec DenialModel DenialProofs DenialProofs2 DenialProofs3 DenialProofs4 DenialProofs5.
From Coq Require Import Sorting.Sorted.

Lemma answer_all : forall apex z q t, served apex z -> below q apex -> legal_name q -> plain_type t ->
  exists o out ds, answer z q t = Ok (o, (out, ds)) /\ answer_facts apex z q t o out ds.
Proof.
  intros apex z q t SV B LG (R & N46 & N47 & _). pose proof (served_ok _ _ SV) as Z. destruct (nget z q) as [n|] eqn:E; [eapply answer_there; eauto|].
  apply answer_missing; auto. intros X. apply there_get in X. congruence.
Qed.
Lemma answer_get : forall apex z q t o out ds, served apex z -> below q apex -> legal_name q -> plain_type t -> answer z q t = Ok (o, (out, ds)) -> answer_facts apex z q t o out ds.
Proof.
  intros apex z q t o out ds SV B LG PT E. destruct (answer_all apex z q t SV B LG PT) as (o' & out' & ds' & E' & F). rewrite E in E'. injection E' as <- <- <-. auto.
Qed.

(** Every query of a name of the zone is answered: no assertion fails and no walk of the tree ends without a node. The
    records are those of the zone, at most two, and none is put twice. *)
Theorem c66_answers : forall apex z q t, served apex z -> below q apex -> legal_name q -> plain_type t ->
  exists o out ds, answer z q t = Ok (o, (out, ds)) /\ (forall x s, In (x, s) out -> exists n, In (x, n) z /\ n_nsec n = [s]) /\
    NoDup (map fst out) /\ (length out <= 2)%nat.
Proof.
  intros apex z q t SV B LG PT. destruct (answer_all apex z q t SV B LG PT) as (o & out & ds & E & ((F1 & F2) & F3 & _)). exists o, out, ds. split; auto. split; auto.
  intros x s H. rewrite Forall_forall in F1. destruct (F1 _ H) as (n & EN & HS). cbn [fst snd] in *. exists n. split; [apply nget_in1; auto|]. pose proof (one_rec apex z x n (served_ok _ _ SV) EN) as L.
  destruct (n_nsec n) as [|s' [|]]; cbn [length] in L; [destruct HS| |lia]. destruct HS as [->|[]]. auto.
Qed.
(** A name error is proved: there is a closest encloser, known from the record which denies the name, and another record
    denies the wildcard there. *)
Theorem c66_nxdomain : forall apex z q t out ds, served apex z -> below q apex -> legal_name q -> plain_type t -> answer z q t = Ok (Miss, (out, ds)) ->
  ~ is_there z q /\ exists c, encloser z q c /\ ~ is_there z ([42] :: c) /\
    (exists r, In r out /\ proves_absent apex r q /\ shows_encloser r q c) /\ (exists r, In r out /\ proves_absent apex r ([42] :: c)).
Proof.
  intros apex z q t out ds SV B LG PT E. destruct (answer_get _ _ _ _ _ _ _ SV B LG PT E) as (_ & _ & _ & N & c & r1 & r2 & H1 & H2 & _ & H3 & H4 & H5 & H6 & H7). split; auto. exists c. split; auto. split; auto. split; [exists r1|exists r2]; auto.
Qed.
(** It is given to names which do not exist, have no wildcard, and no delegation or DNAME above them. *)
Theorem c66_nxdomain_when : forall apex z q t c n, served apex z -> below q apex -> legal_name q -> plain_type t -> ~ is_there z q -> encloser z q c -> ~ is_there z ([42] :: c) ->
  (forall d, cut z d -> ~ below q d) -> In (c, n) z -> ~ In 39 (n_types n) -> exists r, answer z q t = Ok (Miss, r).
Proof.
  intros apex z q t c n SV B LG PT N EC NW NC HC N39. pose proof (served_ok _ _ SV) as Z. destruct (answer_all apex z q t SV B LG PT) as (o & out & ds & E & F). exists (out, ds). rewrite E. repeat f_equal.
  assert (UN : forall c', encloser z q c' -> c' = c) by (intros c' (A1 & A2 & A3); destruct EC as (B1 & B2 & B3); apply below_antisym; auto).
  assert (NS : forall x k, answers_from z q x -> nget z x = Some k -> False).
  { intros x k [(X & _)|(_ & c' & X & ->)] EK; [auto|]. rewrite (UN c' X) in EK. apply NW. apply there_get. intros X2. assert (X3 : Some k = None) by (rewrite <- EK; exact X2). discriminate X3. }
  assert (ML : forall x k, answers_from z q x /\ nget z x = Some k -> False) by (intros x k [X Y]; eauto).
  assert (DN : forall k, nget z c = Some k -> k = n) by (intros k EK; apply nget_in in HC; [congruence|apply (oz_sorted _ _ Z)]).
  destruct F as (_ & _ & _ & F). destruct o; auto; exfalso.
  - destruct F as [(X & _)|(x & k & X & Y & _)]; [discriminate|eauto].
  - destruct F as [(X & _)|(x & k & X & Y & _)]; [discriminate|eauto].
  - destruct F as (d & k & E1 & E2 & E3 & [E4|E4] & _); [|eauto]. apply (NC d); auto. exists k. split; auto. apply nget_in1; auto.
  - destruct F as [(_ & _ & c' & k & X & Y & W & _)|(x & k & X & Y & _)]; [|eauto]. rewrite (UN c' X) in Y. rewrite (DN k Y) in W. auto.
Qed.
(** Missing data is proved. At a name with data, by its record. *)
Theorem c66_nodata : forall apex z q t n out ds, served apex z -> below q apex -> legal_name q -> plain_type t -> In (q, n) z -> answer z q t = Ok (NoData, (out, ds)) ->
  ~ In t (n_types n) /\ (n_types n <> [] -> exists r, In r out /\ proves_no_type r q t) /\ (n_types n = [] -> exists r, In r out /\ proves_empty r q).
Proof.
  intros apex z q t n out ds SV B LG PT HI E. pose proof (served_ok _ _ SV) as Z. destruct (answer_get _ _ _ _ _ _ _ SV B LG PT E) as (_ & _ & _ & F). assert (is_there z q) as HQ by (exists n; auto).
  destruct F as [(X & _)|(x & k & X & Y & W1 & W2 & W3 & _)]; [discriminate|]. destruct X as [(_ & ->)|(X & _)]; [|tauto]. apply nget_in in HI; [|apply (oz_sorted _ _ Z)]. assert (k = n) by congruence. subst k. split; [apply W1|]. auto.
Qed.
Theorem c66_nodata_when : forall apex z q t n, served apex z -> below q apex -> legal_name q -> plain_type t -> In (q, n) z -> n_nonauth n = false -> (n_deleg n = true -> t = 43) ->
  ~ In t (n_types n) -> ~ In 5 (n_types n) -> exists r, answer z q t = Ok (NoData, r).
Proof.
  intros apex z q t n SV B LG PT HI NA D NT N5. pose proof (served_ok _ _ SV) as Z. destruct (answer_all apex z q t SV B LG PT) as (o & out & ds & E & F). exists (out, ds). rewrite E. repeat f_equal. assert (is_there z q) as HQ by (exists n; auto).
  apply nget_in in HI; [|apply (oz_sorted _ _ Z)].
  assert (ST : forall x k, answers_from z q x -> nget z x = Some k -> k = n) by (intros x k [(_ & ->)|(X & _)] EK; [congruence|tauto]).
  destruct F as (_ & _ & _ & F). destruct o; auto; exfalso.
  - destruct F as [(X & _)|(x & k & X & Y & (_ & W & _) & _)]; [discriminate|]. rewrite (ST x k X Y) in W. auto.
  - tauto.
  - destruct F as (d & k & E1 & E2 & E3 & E4 & E5 & _). assert (q = d \/ q <> d) as [X|X] by apply name_dec.
    + subst d. assert (k = n) by congruence. subst. apply E5; auto.
    + destruct E4 as [E4|[(_ & ->)|(X2 & _)]]; [|congruence|tauto]. assert (n_nonauth n = true) by (eapply under_cut; eauto). congruence.
  - destruct F as [(_ & X & _)|(x & k & X & Y & (_ & W & _) & _)]; [tauto|]. rewrite (ST x k X Y) in W. auto.
Qed.
(** What is answered from a wildcard, data or not, is proved: a record denies the name and shows the closest encloser the
    wildcard is at; missing data of a wildcard with other data is proved by its record. Names which begin with an asterisk
    and wildcards without any data are left out. *)
Theorem c66_wildcard_partial : forall apex z q t o out ds x n, served apex z -> below q apex -> legal_name q -> plain_type t -> answer z q t = Ok (o, (out, ds)) ->
  o = Hit \/ o = NoData -> ~ is_there z q -> stands_for z q x -> In (x, n) z ->
  (hd [] q <> [42] -> exists c r, x = [42] :: c /\ encloser z q c /\ In r out /\ proves_absent apex r q /\ shows_encloser r q c) /\
  (o = Hit <-> In t (n_types n)) /\ (o = NoData -> n_types n <> [] -> exists r, In r out /\ proves_no_type r x t).
Proof.
  intros apex z q t o out ds x n SV B LG PT E HO N ST HI. pose proof (served_ok _ _ SV) as Z. destruct (answer_get _ _ _ _ _ _ _ SV B LG PT E) as (_ & _ & _ & F). apply nget_in in HI; [|apply (oz_sorted _ _ Z)].
  assert (U : forall y, answers_from z q y -> y = x).
  { intros y [(X & _)|(_ & c & X & ->)]; [tauto|]. destruct ST as [(Y & _)|(_ & c' & Y & ->)]; [tauto|]. unfold star. f_equal. destruct X as (A1 & A2 & A3), Y as (B1 & B2 & B3). apply below_antisym; auto. }
  assert (W : hd [] q <> [42] -> is_wildcard q = false).
  { intros H. destruct q as [|l q]; cbn [hd is_wildcard] in *; auto. destruct (octets_eqb l star) eqn:EL; auto. apply octets_eqb_spec in EL. exfalso. apply H. exact EL. }
  destruct HO as [-> | ->]; (destruct F as [(X & _)|(y & k & X & Y & W1 & W2 & W3 & W4)]; [discriminate|]); rewrite (U y X) in *; assert (k = n) by congruence; subst k.
  - split; [intros H; apply W4; auto|]. split; [destruct W1 as (_ & W1 & _); tauto|discriminate].
  - split; [intros H; apply W4; auto|]. split; [destruct W1 as (_ & W1 & _); split; [discriminate|tauto]|auto].
Qed.
(** Referrals: names at or below a delegation are referred, but for DS at the delegation; with DS records, or with a
    record which proves that there are none. *)
Theorem c66_referral : forall apex z q t d n, served apex z -> below q apex -> legal_name q -> plain_type t -> In (d, n) z -> n_nonauth n = false -> n_deleg n = true -> below q d -> (q = d -> t <> 43) ->
  exists out ds, answer z q t = Ok (Deleg, (out, ds)) /\ (In 43 (n_types n) -> ds = Some d) /\ (~ In 43 (n_types n) -> ds = None /\ exists r, In r out /\ proves_insecure r d).
Proof.
  intros apex z q t d n SV B LG PT HI NA D BQ NQ. pose proof (served_ok _ _ SV) as Z. destruct (answer_all apex z q t SV B LG PT) as (o & out & ds & E & F). exists out, ds. rewrite E. apply nget_in in HI; [|apply (oz_sorted _ _ Z)].
  assert (HD : is_there z d) by (apply there_get; congruence).
  assert (ABS : forall x k, nget z x = Some k -> n_nonauth k = false -> below x d -> x = d).
  { intros x k EK NK BX. destruct (name_dec x d); auto. assert (n_nonauth k = true) by (eapply (under_cut apex z d n); eauto). congruence. }
  assert (NST : forall x k, answers_from z q x -> nget z x = Some k -> n_nonauth k = false -> (n_deleg k = true -> t = 43) -> False).
  { intros x k [(X & ->)|(X & c & Y & ->)] EK NK DK.
    - assert (q = d) by (eapply ABS; eauto). subst d. assert (k = n) by congruence. subst k. apply NQ; auto.
    - destruct Y as (Y1 & Y2 & Y3). assert (CD : below c d) by (apply Y3; auto). apply (child_ne star c d CD). eapply ABS; eauto. apply below_push; auto. }
  destruct F as (_ & _ & _ & F). destruct o.
  - exfalso. destruct F as [(X & _)|(x & k & X & Y & W & _)]; [discriminate|]. destruct W as (W1 & _ & W2). eauto.
  - exfalso. destruct F as (N & c & r1 & r2 & _ & _ & NC & _). destruct (cut_takes apex z d n Z HI NA D) as (T & _). destruct (NC d n HI T BQ) as [X _]; [intros ->; auto|congruence].
  - exfalso. destruct F as [(X & _)|(x & k & X & Y & W & _)]; [discriminate|]. destruct W as (W1 & _ & W2 & _). eauto.
  - split; auto. destruct F as (d' & m & E1 & E2 & E3 & E4 & E5 & E6).
    assert (d' = d) as ->.
    { assert (below q d') as BQ'.
      { destruct E4 as [E4|[(X & ->)|(X & c & (Y1 & Y2 & Y3) & ->)]]; auto; [apply below_refl|]. exfalso. assert (CD : below c d) by (apply Y3; auto). apply (child_ne star c d CD). eapply ABS; eauto. apply below_push; auto. }
      destruct (above_comp q d d' BQ BQ') as [X|X]; [|eapply ABS; eauto]. destruct (name_dec d d') as [|NE]; auto. assert (n_nonauth n = true) by (eapply (under_cut apex z d' m); eauto). congruence. }
    assert (m = n) by congruence. subst m. destruct E6 as [(-> & X)|(-> & X & Y)]; split; try tauto; auto.
  - exfalso. destruct F as [(_ & N & c & k & EC & Y & _ & W1 & W2)|(x & k & X & Y & W & _)]; [|destruct W as (W1 & _ & _ & W2); eauto].
    destruct EC as (_ & _ & MAX). assert (CD : below c d) by (apply MAX; auto). assert (c = d) by (eapply ABS; eauto). subst c. assert (k = n) by congruence. subst. congruence.
Qed.
(** Zones in every history of C33 make such chains, once deleted nodes are left out. *)
Theorem c66_history : forall apex ttl zs keep, signed_zone apex ttl zs -> (forall e, In e zs -> takes_part (snd e) = true -> keep e = true) -> tree apex (filter keep zs) ->
  served apex (filter keep zs) /\ closed_chain ttl (filter keep zs).
Proof. intros apex ttl zs keep SZ K T. split; [exists ttl, zs, keep; auto|]. apply (keep_ok apex ttl zs keep SZ K). Qed.

(** * Examples *)
Definition dx (l : Z) : nm := [[l]; [101]].
Definition dx_b : nm := dx 98.
(** An apex, a host, an empty non-terminal with a wildcard and a host below, a delegation without DS and its glue, one
    with DS, a DNAME *)
Definition dx_zone : zone :=
  [(ex_e, plain [6; 2; 48]); (dx 97, plain [1]); (dx_b, plain []); ([42] :: dx_b, plain [16]); ([120] :: dx_b, plain [1]);
   (dx 99, mknode [2] [] [] true false); ([110] :: dx 99, mknode [1] [] [] false true); (dx 100, mknode [2; 43] [] [] true false); (dx 102, plain [39])].
(** A wildcard without data but with a name below; a wildcard alone *)
Definition dx_ent : zone := [(ex_e, plain [6; 2; 48]); (dx 42, plain []); ([97] :: dx 42, plain [1])].
Definition dx_star : zone := [(ex_e, plain [6; 2; 48]); (dx 42, plain [16])].
Definition dx_signed : zone := Eval vm_compute in ok_or [] (nsec_create_chain dx_zone 3600).
Definition dx_ent_signed : zone := Eval vm_compute in ok_or [] (nsec_create_chain dx_ent 3600).
Definition dx_star_signed : zone := Eval vm_compute in ok_or [] (nsec_create_chain dx_star 3600).
Ltac dx_below := first [exists []; reflexivity | eexists [_]; reflexivity | eexists [_; _]; reflexivity].
Ltac dx_mem := repeat (first [left; reflexivity | right]).
Ltac dx_no H := let p := fresh in destruct H as [p H]; cbv in H; repeat (destruct p as [|? p]; [try discriminate H; try reflexivity|try discriminate H]); try discriminate H.
Lemma dx_start : forall z, sorted (map fst z) -> (exists n rest, z = (ex_e, n) :: rest /\ takes_part n = true) ->
  Forall (fun e => Forall (fun t => 0 <= t < 65536 /\ t <> 46 /\ t <> 47) (n_types (snd e)) /\ n_sigs (snd e) = [] /\ n_nsec (snd e) = []) z ->
  forall zs, nsec_create_chain z 3600 = Ok zs -> signed_zone ex_e 3600 zs.
Proof.
  intros z S F TY zs E. rewrite Forall_forall in TY. apply (SZ_first ex_e 3600 z zs); auto.
  - split; auto. split; auto. rewrite Forall_forall. intros e He. apply (TY e He).
  - intros x n H _ _. destruct (TY _ H) as (_ & X & _). cbn [snd] in X. rewrite X. split; [intros t []|auto].
  - intros x n H. destruct (TY _ H) as (_ & _ & X). cbn [snd] in X. rewrite X. cbn [length]. lia.
Qed.
Ltac dx_tree := split; [|split; [|split; [|split]]];
  [ intros x n H; repeat (destruct H as [H|H]; [injection H as <- <-; first [left; reflexivity | right; eexists _, _, _; split; [reflexivity|]; split; [dx_mem|]; split; [dx_below|reflexivity]]|]); destruct H
  | intros n H; repeat (destruct H as [H|H]; [first [discriminate H | injection H as <-; split; [reflexivity|split; [reflexivity|left; reflexivity]]]|]); destruct H
  | intros x n H NE; repeat (destruct H as [H|H]; [injection H as <- <-; cbn [n_deleg n_nonauth n_types In]; first [congruence | split; intros; try discriminate; try (split; auto; fail); exfalso; intuition discriminate]|]); destruct H
  | intros x n y m H NA D T39 HY BY; repeat (destruct H as [H|H]; [injection H as <- <-; cbn [n_types In] in T39; first [exfalso; intuition discriminate | idtac]|]); try (destruct H; fail);
    repeat (destruct HY as [HY|HY]; [injection HY as <- <-; destruct BY as [p BY]; repeat (destruct p as [|? p]; cbn [app] in BY; try discriminate BY; try reflexivity)|]); destruct HY
  | intros x n H NA ET; repeat (destruct H as [H|H]; [injection H as <- <-; first [discriminate ET | eexists _, _; split; [| split; [|dx_below]]; [dx_mem|reflexivity] | idtac]|]); try (destruct H; fail) ].
Lemma dx_tree_ok : tree ex_e dx_signed.
Proof. dx_tree. eexists ([120] :: dx_b), _. split; [right; right; right; right; left; reflexivity|]. split; [reflexivity|exists [[120]]; reflexivity]. Qed.
Lemma dx_keep_all : forall z, z = filter (fun _ : nm * node => true) z.
Proof. induction z as [|e z IH]; cbn [filter]; congruence. Qed.
Lemma dx_served_by : forall z zs, sorted (map fst z) -> (exists n rest, z = (ex_e, n) :: rest /\ takes_part n = true) ->
  Forall (fun e => Forall (fun t => 0 <= t < 65536 /\ t <> 46 /\ t <> 47) (n_types (snd e)) /\ n_sigs (snd e) = [] /\ n_nsec (snd e) = []) z ->
  nsec_create_chain z 3600 = Ok zs -> tree ex_e zs -> served ex_e zs.
Proof. intros z zs S F TY E T. exists 3600, zs, (fun _ => true). split; [eapply dx_start; eauto|]. split; auto. split; auto. apply dx_keep_all. Qed.
Ltac dx_types := repeat (apply Forall_cons; [split; [cbn [snd n_types plain]; repeat (apply Forall_cons; [lia|]); apply Forall_nil|split; reflexivity]|]); apply Forall_nil.
Ltac dx_serve z := apply (dx_served_by z); [ex_lt|eexists _, _; split; reflexivity|dx_types|vm_compute; reflexivity|].
Lemma dx_served : served ex_e dx_signed.
Proof. dx_serve dx_zone. apply dx_tree_ok. Qed.
Lemma dx_ent_served : served ex_e dx_ent_signed.
Proof. dx_serve dx_ent. dx_tree. eexists ([97] :: dx 42), _. split; [right; right; left; reflexivity|]. split; [reflexivity|exists [[97]]; reflexivity]. Qed.
Lemma dx_star_served : served ex_e dx_star_signed.
Proof. dx_serve dx_star. dx_tree. Qed.
Definition owners (r : res (outcome * (list rec * option name))) : option (outcome * list nm * option nm) :=
  match r with Ok (o, (out, ds)) => Some (o, map fst out, ds) | _ => None end.
(** Names which do not exist, an empty non-terminal, missing data, data and missing data of a wildcard, referrals, DS at a
    delegation, a name below a DNAME *)
Example c66_example : served ex_e dx_signed /\
  owners (answer dx_signed (dx 122) 1) = Some (Miss, [dx 102; ex_e], None) /\
  owners (answer dx_signed ([97] :: dx 97) 1) = Some (Miss, [dx 97], None) /\
  owners (answer dx_signed dx_b 1) = Some (NoData, [dx 97], None) /\
  owners (answer dx_signed (dx 97) 16) = Some (NoData, [dx 97], None) /\
  owners (answer dx_signed ([121] :: dx_b) 16) = Some (Hit, [[120] :: dx_b], None) /\
  owners (answer dx_signed ([121] :: dx_b) 1) = Some (NoData, [[42] :: dx_b; [120] :: dx_b], None) /\
  owners (answer dx_signed ([120] :: [110] :: dx 99) 1) = Some (Deleg, [dx 99], None) /\
  owners (answer dx_signed ([110] :: dx 100) 1) = Some (Deleg, [], Some (dx 100)) /\
  owners (answer dx_signed (dx 99) 43) = Some (NoData, [dx 99], None) /\
  owners (answer dx_signed ([110] :: dx 102) 1) = Some (Follow, [], None).
Proof. split; [apply dx_served|]. vm_compute. repeat match goal with |- _ /\ _ => split end; reflexivity. Qed.
Ltac dx_legal := split; [unfold dx; repeat (apply Forall_cons; [split; [unfold zlen; cbn [length]; lia|repeat (apply Forall_cons; [unfold byte; lia|]); apply Forall_nil]|]); apply Forall_nil|vm_compute; discriminate].
Example c66_hypotheses : below (dx 122) ex_e /\ legal_name (dx 122) /\ plain_type 1 /\ ~ is_there dx_signed (dx 122) /\ encloser dx_signed (dx 122) ex_e /\ cut dx_signed (dx 99).
Proof.
  split; [dx_below|]. split; [dx_legal|]. split; [unfold plain_type; lia|]. assert (N : ~ is_there dx_signed (dx 122)) by (intros H; apply there_get in H; apply H; vm_compute; reflexivity). split; auto. split.
  - split; [apply there_get; vm_compute; discriminate|]. split; [dx_below|]. intros d HD [p E]. destruct p as [|l [|l' [|l'' p]]]; cbn [app] in E; [subst d; tauto| | |discriminate E].
    + injection E as _ <-. apply below_refl.
    + injection E as _ _ <-. exfalso. apply there_get in HD. apply HD. vm_compute. reflexivity.
  - exists (mknode [2] [] [mknsec (dx 100) [0; 6; 32; 0; 0; 0; 0; 3] 3600] true false). split; [|split; reflexivity]. vm_compute. tauto.
Qed.

(** * What is not proved to the client *)
(** A wildcard which exists only because of names below it has no data, but the answer does not prove it: the record
    showing that the wildcard is empty is missing. *)
Theorem c66_wildcard_ent_refuted : exists apex z q c n t out, served apex z /\ below q apex /\ legal_name q /\ plain_type t /\ ~ is_there z q /\ encloser z q c /\
  In ([42] :: c, n) z /\ n_nonauth n = false /\ answer z q t = Ok (NoData, (out, None)) /\
  forall r, In r out -> ~ proves_empty r ([42] :: c) /\ ~ proves_no_type r ([42] :: c) t /\ ~ proves_absent apex r ([42] :: c).
Proof.
  exists ex_e, dx_ent_signed, (dx 122), ex_e, (plain []), 1, [([97] :: dx 42, mknsec ex_e [0; 6; 64; 0; 0; 0; 0; 3] 3600)]. split; [apply dx_ent_served|]. split; [dx_below|]. split; [dx_legal|]. split; [unfold plain_type; lia|].
  assert (N : ~ is_there dx_ent_signed (dx 122)) by (intros H; apply there_get in H; apply H; vm_compute; reflexivity). split; auto. split.
  { split; [apply there_get; vm_compute; discriminate|]. split; [dx_below|]. intros d HD [p E]. destruct p as [|l [|l' [|l'' p]]]; cbn [app] in E; [subst d; tauto| | |discriminate E].
    - injection E as _ <-. apply below_refl.
    - injection E as _ _ <-. exfalso. apply there_get in HD. apply HD. vm_compute. reflexivity. }
  split; [right; left; reflexivity|]. split; [reflexivity|]. split; [vm_compute; reflexivity|]. intros r [<-|[]]. split; [intros (L & _); vm_compute in L; discriminate L|]. split; [intros (L & _); discriminate L|intros (L & _); vm_compute in L; discriminate L].
Qed.
(** The answer from a wildcard to a name which begins with an asterisk has no proof that the name does not exist. *)
Theorem c66_wildcard_qname_refuted : exists apex z q c n t, served apex z /\ below q apex /\ legal_name q /\ plain_type t /\ ~ is_there z q /\ encloser z q c /\
  In ([42] :: c, n) z /\ n_nonauth n = false /\ In t (n_types n) /\ answer z q t = Ok (Hit, ([], None)).
Proof.
  exists ex_e, dx_star_signed, ([42] :: dx 122), ex_e, (mknode [16] [] [mknsec ex_e [0; 6; 0; 0; 128; 0; 0; 3] 3600] false false), 16. split; [apply dx_star_served|]. split; [dx_below|]. split; [dx_legal|]. split; [unfold plain_type; lia|].
  assert (N : ~ is_there dx_star_signed ([42] :: dx 122)) by (intros H; apply there_get in H; apply H; vm_compute; reflexivity). split; auto. split.
  { split; [apply there_get; vm_compute; discriminate|]. split; [dx_below|]. intros d HD [p E]. destruct p as [|l [|l' [|l'' [|l3 p]]]]; cbn [app] in E; [subst d; tauto| | | |discriminate E].
    - injection E as _ <-. exfalso. apply there_get in HD. apply HD. vm_compute. reflexivity.
    - injection E as _ _ <-. apply below_refl.
    - injection E as _ _ _ <-. exfalso. apply there_get in HD. apply HD. vm_compute. reflexivity. }
  split; [vm_compute; tauto|]. split; [reflexivity|]. split; [left; reflexivity|vm_compute; reflexivity].
Qed.

Print Assumptions c66_answers.
Print Assumptions c66_nxdomain.
Print Assumptions c66_nxdomain_when.
Print Assumptions c66_nodata.
Print Assumptions c66_nodata_when.
Print Assumptions c66_wildcard_partial.
Print Assumptions c66_referral.
Print Assumptions c66_history.
Print Assumptions c66_wildcard_ent_refuted.
Print Assumptions c66_wildcard_qname_refuted.
