(** C28: access control. *)
From Verif Require Import Base WireModel SockaddrModel SockaddrProps CookiesModel CookiesProps AclModel DnameModel DnameSpec DnameProofs DnameProofs2 DnameProofs4 DnameProps.

(** ** Specification *)
(** relations of the owner of a record to a name of the rule *)
Definition owner_rel (m : Z) (o n : list label) : Prop :=
  (m = MATCH_SUBEQ /\ exists p, o = p ++ n) \/ (m = MATCH_EQ /\ o = n) \/ (m = MATCH_SUB /\ exists p, p <> [] /\ o = p ++ n) \/
  (m = MATCH_PATTERN /\ Forall2 (fun pl ol => pl = [42] \/ pl = ol) n o).
Definition legal (ls : list label) : Prop := Forall legal_label ls.
Definition is_name (b : list Z) : Prop := exists ls, legal ls /\ b = wire ls.
(** a configured name: absolute, or relative to the zone and completed with its name *)
Definition full_name (zone : list Z) (nm : list Z) (ls : list label) : Prop :=
  legal ls /\ (nm = wire ls \/ exists p z, ls = p ++ z /\ zone = wire z /\ p <> [] /\ nm = prefix_wire p /\ last nm 0 <> 0 /\ name_size ls <= 255).
(** the records of an update a rule permits *)
Definition rr_ok (r : rule) (q : request) (o : list label) (t : Z) : Prop :=
  (ru_types r = [] \/ In t (ru_types r)) /\
  (ru_owner r = OWNER_KEY -> forall kn alg, q_key q = Some (wire kn, alg) -> legal kn -> owner_rel (ru_match r) o kn) /\
  (ru_owner r = OWNER_ZONE -> forall z, q_zone q = wire z -> legal z -> owner_rel (ru_match r) o z) /\
  (ru_owner r = OWNER_NAME -> ru_names r <> [] -> exists nm ls, In nm (ru_names r) /\ full_name (q_zone q) nm ls /\ owner_rel (ru_match r) o ls).
Definition update_ok (r : rule) (q : request) : Prop := forall o t, legal o -> In (wire o, t) (q_rrs q) -> rr_ok r q o t.
(** address, certificate, key and protocol *)
Definition item_has (it : addr_item) (a : sockaddr) : Prop :=
  match it with
  | ANet n p => ss_family a = ss_family n /\ ipnum a / 2 ^ (ipbits a - Z.min p (ipbits a)) = ipnum n / 2 ^ (ipbits a - Z.min p (ipbits a))
  | ARange mn mx => sockaddr_range_match a mn mx = true
  end.
Definition pin_ok (pins : list (list Z)) (q : request) : Prop := pins = [] \/ (q_pin q <> [] /\ In (q_pin q) pins).
Definition key_ok (keys : list key) (q : request) (deny forward : bool) (k : option key) : Prop :=
  (keys = [] /\ k = None /\ (q_key q = None \/ forward = true \/ deny = true)) \/
  (exists k', k = Some k' /\ In k' keys /\ q_key q = Some (k_name k', k_alg k')).
Definition rmt_proto (p : proto) (rm : remote) : Prop :=
  match p with QUIC => rm_quic rm = true | TLS => rm_quic rm = false /\ rm_tls rm = true | _ => rm_quic rm = false /\ rm_tls rm = false end.
Definition rmt_addr (rm : remote) (a : sockaddr) : Prop := exists m, In m (rm_addrs rm) /\ same_addr m a true.
Definition who (r : rule) (q : request) (forward : bool) (k : option key) : Prop :=
  (ru_remotes r = [] /\ (ru_addrs r = [] \/ exists it, In it (ru_addrs r) /\ item_has it (q_addr q)) /\ pin_ok (ru_pins r) q /\
     key_ok (ru_keys r) q (ru_deny r) forward k /\ (ru_protos r = [] \/ exists v, In v (ru_protos r) /\ Z.land v (proto_mask (q_proto q)) <> 0)) \/
  (exists rm, In rm (ru_remotes r) /\ (rm_addrs rm = [] \/ rmt_addr rm (q_addr q)) /\ pin_ok (rm_pins rm) q /\ key_ok (key_list (rm_key rm)) q (ru_deny r) forward k /\ rmt_proto (q_proto q) rm).
(** the rule concerns the request *)
Definition applies (r : rule) (action : Z) (q : request) (forward : bool) : Prop :=
  (exists k, who r q forward k) /\ (action = ACTION_QUERY \/ ru_actions r = [] \/ In action (ru_actions r)) /\ (action = ACTION_UPDATE -> ru_actions r <> [] -> update_ok r q).
Definition permits (r : rule) (action : Z) : Prop := ru_deny r = false /\ (action = ACTION_QUERY \/ ru_actions r <> []).
(** well-formed configuration and request *)
Definition item_wf (it : addr_item) : Prop := match it with ANet n p => addr_ok n /\ 0 <= p | ARange _ _ => True end.
Definition pins_wf (l : list (list Z)) : Prop := Forall bytes l.
Definition remote_wf (rm : remote) : Prop := Forall addr_ok (rm_addrs rm) /\ pins_wf (rm_pins rm) /\ Forall (fun k => is_name (k_name k)) (key_list (rm_key rm)).
Definition rule_wf (q : request) (r : rule) : Prop := Forall remote_wf (ru_remotes r) /\ Forall item_wf (ru_addrs r) /\ pins_wf (ru_pins r) /\ Forall (fun k => is_name (k_name k)) (ru_keys r) /\ Forall (fun nm => exists ls, full_name (q_zone q) nm ls) (ru_names r) /\
  0 <= ru_owner r <= 3 /\ 0 <= ru_match r <= 3.
Definition request_wf (q : request) : Prop := addr_ok (q_addr q) /\ is_ip (q_addr q) /\ bytes (q_pin q) /\ (forall n alg, q_key q = Some (n, alg) -> is_name n) /\ is_name (q_zone q) /\ Forall (fun x => is_name (fst x)) (q_rrs q).

(** ** Names *)
Lemma wire0 : forall ls, wire ls = wire ls ++ []. Proof. intros. symmetry. apply app_nil_r. Qed.
Lemma adv1 : forall x (d : list Z), advance (x :: d) 1 = Ok d.
Proof. intros. unfold advance. rewrite zlen_cons. pose proof (zlen_nonneg d). replace (1 >? 1 + zlen d) with false by lia. reflexivity. Qed.
Lemma adv_lab : forall (l d : list Z), advance (l ++ d) (zlen l) = Ok d.
Proof. apply advance_app. Qed.
Lemma take_lab : forall (l d : list Z), take (l ++ d) (zlen l) = Ok l.
Proof. intros. unfold take. rewrite zlen_app. pose proof (zlen_nonneg d). replace (zlen l >? zlen l + zlen d) with false by lia. f_equal. unfold zfirstn, zlen. rewrite Nat2Z.id. rewrite firstn_app, Nat.sub_diag, firstn_all. cbn [firstn]. apply app_nil_r. Qed.
Lemma beq : forall a b, bytes_eqb a b = true <-> a = b.
Proof. induction a as [|x a IH]; intros [|y b]; cbn [bytes_eqb]; try (split; [discriminate|discriminate]); [tauto|]. rewrite andb_true_iff, IH, Z.eqb_eq. split; [intros [-> ->]; auto|intros [= -> ->]; auto]. Qed.
Lemma pattern_loop : forall n o fuel, legal n -> legal o -> (length n < fuel)%nat -> exists b, match_pattern_loop fuel (wire o) (wire n) = Ok b /\ (b = true <-> Forall2 (fun pl ol => pl = [42] \/ pl = ol) n o).
Proof.
  induction n as [|l n IH]; intros o fuel HN HO HF; (destruct fuel as [|fuel]; [cbn [length] in HF; lia|]); cbn [match_pattern_loop].
  - change (wire []) with [0]. cbn [rd0 rbind]. rewrite adv1. cbn [rbind]. destruct o as [|x o].
    + change (wire []) with [0]. cbn [rd0 rbind]. rewrite adv1. cbn [rbind]. change (0 =? 1) with false. cbn [rbind]. change (0 =? 0) with true. cbn [negb]. exists true. split; auto. split; auto.
    + cbn [wire rd0 rbind]. rewrite adv1. cbn [rbind]. change (0 =? 1) with false. cbn [rbind]. pose proof (Forall_inv HO) as [Lx _]. replace (0 =? zlen x) with false by lia. cbn [negb]. exists false. split; auto. split; [discriminate|]. intros H. inversion H.
  - cbn [wire rd0 rbind]. rewrite adv1. cbn [rbind]. pose proof (Forall_inv HN) as [Ll Bl]. set (star := if zlen l =? 1 then _ else _). assert (ES : exists s, star = Ok s /\ (s = true <-> l = [42])).
    { unfold star. destruct (zlen l =? 1) eqn:E1.
      - destruct l as [|c l]; [rewrite zlen_nil in E1; lia|]. rewrite zlen_cons in E1. destruct l as [|]; [|rewrite zlen_cons in E1; pose proof (zlen_nonneg l); lia]. cbn [app rd0 rbind]. eexists. split; [reflexivity|]. rewrite Z.eqb_eq. split; [intros ->; auto|congruence].
      - eexists. split; [reflexivity|]. split; [discriminate|]. intros ->. discriminate E1. }
    destruct ES as (s & -> & HS). destruct o as [|x o].
    + change (wire []) with [0]. cbn [rd0 rbind]. rewrite adv1. cbn [rbind]. exists false. assert (~ Forall2 (fun pl ol => pl = [42] \/ pl = ol) (l :: n) []) by (intros H; inversion H). destruct s; [change (0 =? 0) with true; split; auto; split; [discriminate|tauto]|]. replace (zlen l =? 0) with false by lia. cbn [negb]. split; auto. split; [discriminate|tauto].
    + cbn [wire rd0 rbind]. rewrite adv1. cbn [rbind]. rewrite !adv_lab. cbn [rbind]. pose proof (Forall_inv HO) as [Lx Bx]. destruct (IH o fuel (Forall_inv_tail HN) (Forall_inv_tail HO) ltac:(cbn [length] in HF; lia)) as (b & EB & HB). destruct s.
      * replace (zlen x =? 0) with false by lia. exists b. split; auto. rewrite HB. assert (l = [42]) as -> by (apply HS; auto). split; [intros H; constructor; auto|intros H; inversion H; auto].
      * destruct (zlen l =? zlen x) eqn:EL; cbn [negb].
        -- replace (zlen l =? 0) with false by lia. rewrite take_lab. cbn [rbind]. replace (zlen l) with (zlen x) by lia. rewrite take_lab. cbn [rbind]. destruct (bytes_eqb l x) eqn:EQ; cbn [negb].
           ++ replace (zlen x) with (zlen l) by lia. apply beq in EQ. subst x. exists b. split; auto. rewrite HB. split; [intros H; constructor; auto|intros H; inversion H; auto].
           ++ exists false. split; auto. split; [discriminate|]. intros H. inversion H as [|? ? ? ? [H1|H1] _]; subst; [assert (false = true) by (apply HS; auto); discriminate|]. assert (bytes_eqb x x = true) by (apply beq; auto). congruence.
        -- exists false. split; auto. split; [discriminate|]. intros H. inversion H as [|? ? ? ? [H1|H1] _]; subst; [assert (false = true) by (apply HS; auto); discriminate|lia].
Qed.
Lemma wire_len : forall ls, (length ls < length (wire ls))%nat.
Proof. intros. rewrite wire0. apply wire_length. Qed.
Lemma app_cancel_len : forall {A} (p p' n : list A), p ++ n = p' ++ n -> zlen p = zlen p'.
Proof. intros A p p' n H. apply (f_equal (@length A)) in H. rewrite !app_length in H. unfold zlen. lia. Qed.
Lemma match_name_spec : forall o n m, legal o -> legal n -> 0 <= m <= 3 -> exists b, match_name (wire o) (Some (wire n)) m = Ok b /\ (b = true <-> owner_rel m o n).
Proof.
  intros o n m HO HN HM. unfold match_name. destruct (m =? MATCH_PATTERN) eqn:EP.
  - unfold match_pattern. destruct (pattern_loop n o (S (length (wire n))) HN HO ltac:(pose proof (wire_len n); lia)) as (b & -> & HB). exists b. split; auto. rewrite HB. unfold owner_rel, MATCH_SUBEQ, MATCH_EQ, MATCH_SUB, MATCH_PATTERN in *. split; [intros H; right; right; right; split; [lia|auto]|]. intros [[H _]|[[H _]|[[H _]|[_ H]]]]; try lia; auto.
  - rewrite (wire0 o), (wire0 n). destruct (c05_in_bailiwick o n [] [] HO HN) as [H1 H2].
    assert (D : (exists p, o = p ++ n) \/ (forall p, o <> p ++ n)).
    { destruct (list_eq_dec (list_eq_dec Z.eq_dec) (skipn (length o - length n) o) n) as [E|E].
      - left. exists (firstn (length o - length n) o). rewrite <- E at 2. symmetry. apply firstn_skipn.
      - right. intros p ->. apply E. rewrite app_length. replace (length p + length n - length n)%nat with (length p) by lia. rewrite skipn_app, Nat.sub_diag, skipn_all. auto. }
    assert (NO : (forall p, o <> p ++ n) -> owner_rel m o n -> False). { intros HN' H. unfold owner_rel, MATCH_SUBEQ, MATCH_EQ, MATCH_SUB, MATCH_PATTERN in *. destruct H as [[_ [p H]]|[[_ ->]|[[_ (p & _ & H)]|[H _]]]]; [eapply HN'; eauto|apply (HN' []); auto|eapply HN'; eauto|lia]. }
    destruct D as [[p Hp]|D].
    + rewrite (H1 p Hp). cbn [rbind]. eexists. split; [reflexivity|]. unfold owner_rel, MATCH_SUBEQ, MATCH_EQ, MATCH_SUB, MATCH_PATTERN in *. pose proof (zlen_nonneg p). destruct (m =? 0) eqn:E0; [split; [intros _; left; split; [lia|eauto]|lia]|]. destruct (m =? 1) eqn:E1.
      * split; [intros H3; right; left; split; [lia|]; destruct p; [auto|rewrite zlen_cons in H3; pose proof (zlen_nonneg p); lia]|]. intros [[H3 _]|[[_ H3]|[[H3 _]|[H3 _]]]]; try lia. subst n. assert (zlen p = 0); [|lia]. apply (app_cancel_len p [] o). rewrite <- Hp. auto.
      * destruct (m =? 2) eqn:E2; [|lia]. split.
        -- intros H3. right. right. left. split; [lia|]. exists p. split; auto. intros ->. rewrite zlen_nil in H3. lia.
        -- intros [[H3 _]|[[H3 _]|[(_ & p' & H3 & H4)|[H3 _]]]]; try lia. assert (zlen p = zlen p') by (apply (app_cancel_len p p' n); congruence). destruct p'; [congruence|]. rewrite zlen_cons in *. pose proof (zlen_nonneg p'). lia.
    + rewrite (H2 D). cbn [rbind]. exists false. split; [|split; [discriminate|intros H; exfalso; apply NO; auto]]. unfold KNOT_EOUTOFZONE, MATCH_SUBEQ, MATCH_EQ, MATCH_SUB in *. destruct (m =? 0); auto. destruct (m =? 1); auto. destruct (m =? 2); auto.
Qed.
Lemma last_wire : forall ls, last (wire ls) 0 = 0.
Proof. induction ls as [|l ls IH]; auto. cbn [wire]. rewrite <- IH at 2. change (zlen l :: l ++ wire ls) with ((zlen l :: l) ++ wire ls). generalize (zlen l :: l). intros a. induction a as [|x a IHa]; auto. cbn [app]. rewrite <- IHa. destruct (a ++ wire ls) eqn:E; auto. apply app_eq_nil in E. destruct ls; cbn [wire] in E; destruct E; discriminate. Qed.
Lemma full_unique : forall zone nm a b, full_name zone nm a -> full_name zone nm b -> a = b.
Proof.
  intros zone nm a b [LA HA] [LB HB]. destruct HA as [EA|(p & z & -> & EZ & HP & EN & HL & HS)], HB as [EB|(p' & z' & -> & EZ' & HP' & EN' & HL' & HS')].
  - apply wire_inj; [congruence|auto|auto].
  - exfalso. apply HL'. rewrite EA. apply last_wire.
  - exfalso. apply HL. rewrite EB. apply last_wire.
  - apply wire_inj; [|auto|auto]. rewrite <- !prefix_wire_app. congruence.
Qed.
Lemma match_names_loop_spec : forall o zb z m names, legal o -> legal z -> zb = wire z -> 0 <= m <= 3 -> Forall (fun nm => exists ls, full_name zb nm ls) names ->
  exists b, match_names_loop (wire o) zb names m = Ok b /\ (b = true <-> exists nm ls, In nm names /\ full_name zb nm ls /\ owner_rel m o ls).
Proof.
  intros o zb z m names HO HZ -> HM. induction names as [|nm names IH]; intros HF; cbn [match_names_loop].
  - exists false. split; auto. split; [discriminate|]. intros (nm & ls & [] & _).
  - destruct (IH (Forall_inv_tail HF)) as (b & EB & HB). assert (ED : dname_size (wire z) = Ok (name_size z)) by (rewrite (wire0 z); apply dname_size_spec; auto). rewrite ED. cbn [rbind]. assert (ET : take (wire z) (name_size z) = Ok (wire z)). { rewrite <- zlen_wire. pose proof (take_lab (wire z) []) as HT. rewrite app_nil_r in HT. auto. } rewrite ET. cbn [rbind]. destruct (Forall_inv HF) as [ls HL]. pose proof HL as [LL HC].
    assert (STEP : forall x, match_name (wire o) (Some x) m = match_name (wire o) (Some (wire ls)) m -> exists b0, (let* m0 := match_name (wire o) (Some x) m in if m0 then Ok true else match_names_loop (wire o) (wire z) names m) = Ok b0 /\ (b0 = true <-> exists nm0 ls0, In nm0 (nm :: names) /\ full_name (wire z) nm0 ls0 /\ owner_rel m o ls0)).
    { intros x ->. destruct (match_name_spec o ls m HO LL HM) as (c & -> & HC'). cbn [rbind]. destruct c.
      - exists true. split; auto. split; auto. intros _. exists nm, ls. split; [left; auto|]. split; auto. apply HC'. auto.
      - exists b. split; auto. rewrite HB. split.
        + intros (nm0 & ls0 & I & H). exists nm0, ls0. split; [right; auto|auto].
        + intros (nm0 & ls0 & [<-|I] & H1 & H2); [|exists nm0, ls0; auto]. rewrite (full_unique _ _ _ _ H1 HL) in H2. apply HC' in H2. discriminate. }
    destruct HC as [->|(p & z' & -> & EZ & HP & EN & HN & HS)].
    + rewrite last_wire. change (0 =? 0) with true. cbn [negb]. apply STEP. auto.
    + replace (last nm 0 =? 0) with false by lia. cbn [negb]. assert (z' = z) as ->. { apply wire_inj; auto. apply Forall_app in LL. tauto. }
      assert (EW : nm ++ wire z = wire (p ++ z)) by (rewrite EN; apply prefix_wire_app). rewrite <- zlen_app, EW, zlen_wire. replace (name_size (p ++ z) >? 255) with false by lia. apply STEP. auto.
Qed.
Lemma match_type_spec : forall t types, match_type t types = true <-> types = [] \/ In t types.
Proof.
  intros t [|x types]; cbn [match_type]; [tauto|]. rewrite existsb_exists. split.
  - intros (y & I & H). right. replace t with y by lia. auto.
  - intros [H|H]; [discriminate|]. exists t. split; auto. lia.
Qed.
Lemma update_loop_spec : forall r q rrs, rule_wf q r -> request_wf q -> Forall (fun x => is_name (fst x)) rrs ->
  exists b, update_loop r (if negb (ru_owner r =? OWNER_NONE) then ru_match r else MATCH_SUBEQ) (match q_key q with Some (n, _) => Some n | None => None end) (q_zone q) rrs = Ok b /\
  (b = true <-> forall o t, legal o -> In (wire o, t) rrs -> rr_ok r q o t).
Proof.
  intros r q rrs (W1 & W2 & W3 & W4 & W5 & W6 & W7) (Q1 & Q2 & Q3 & Q4 & (z & LZ & EZ) & Q6). set (mt := if negb _ then _ else _). induction rrs as [|[ob t] rrs IH]; intros HF; cbn [update_loop].
  - exists true. split; auto. split; auto. intros _ o t _ [].
  - destruct (IH (Forall_inv_tail HF)) as (b & EB & HB). destruct (Forall_inv HF) as (o & LO & EO). cbn [fst] in EO. subst ob. destruct (match_type t (ru_types r)) eqn:ET; cbn [negb].
    2:{ exists false. split; auto. split; [discriminate|]. intros H. destruct (H o t LO (or_introl eq_refl)) as [H1 _]. apply match_type_spec in H1. congruence. }
    assert (M : exists c, (if ru_owner r =? OWNER_NAME then match_names (wire o) (q_zone q) (ru_names r) mt else if ru_owner r =? OWNER_KEY then match_name (wire o) (match q_key q with Some (n, _) => Some n | None => None end) mt else if ru_owner r =? OWNER_ZONE then match_name (wire o) (Some (q_zone q)) mt else Ok true) = Ok c /\ (c = true <-> rr_ok r q o t)).
    { apply match_type_spec in ET. unfold rr_ok, OWNER_NAME, OWNER_KEY, OWNER_ZONE, OWNER_NONE in *. destruct (ru_owner r =? 3) eqn:E3; [|destruct (ru_owner r =? 1) eqn:E1; [|destruct (ru_owner r =? 2) eqn:E2]].
      - assert (mt = ru_match r) as -> by (unfold mt; destruct (ru_owner r =? 0) eqn:E0; cbn [negb]; [lia|auto]). unfold match_names. destruct (ru_names r) as [|nm names] eqn:EN.
        + exists true. split; auto. split; auto. intros _. split; auto. split; [lia|]. split; [lia|]. intros _ H. congruence.
        + destruct (match_names_loop_spec o (q_zone q) z (ru_match r) (nm :: names) LO LZ EZ W7 W5) as (c & EC & HC). exists c. split; auto. rewrite HC. split; [intros H; split; auto; split; [lia|]; split; [lia|]; auto|]. intros (_ & _ & _ & H). apply H; [lia|discriminate].
      - assert (mt = ru_match r) as -> by (unfold mt; destruct (ru_owner r =? 0) eqn:E0; cbn [negb]; [lia|auto]). destruct (q_key q) as [[kb alg]|] eqn:EK.
        + destruct (Q4 kb alg eq_refl) as (kn & LK & ->). destruct (match_name_spec o kn (ru_match r) LO LK W7) as (c & EC & HC). exists c. split; auto. rewrite HC. split; [intros H; split; auto; split; [|split; [lia|lia]]|].
          * intros _ kn' alg' [= E _] LK'. apply wire_inj in E; auto. subst; auto.
          * intros (_ & H & _). eapply H; eauto; lia.
        + exists true. split; auto. split; auto. intros _. split; auto. split; [discriminate|]. split; lia.
      - assert (mt = ru_match r) as -> by (unfold mt; destruct (ru_owner r =? 0) eqn:E0; cbn [negb]; [lia|auto]). rewrite EZ. destruct (match_name_spec o z (ru_match r) LO LZ W7) as (c & EC & HC). exists c. split; auto. rewrite HC. split; [intros H; split; auto; split; [lia|]; split; [|lia]|].
        + intros _ z' E LZ'. apply wire_inj in E; auto. subst; auto.
        + intros (_ & _ & H & _). apply H; auto; lia.
      - exists true. split; auto. split; auto. intros _. split; auto. split; [lia|]. split; lia. }
    destruct M as (c & -> & HC). cbn [rbind]. destruct c; cbn [negb].
    + exists b. split; auto. rewrite HB. split.
      * intros H o' t' L' [E|I]; [|auto]. injection E as E <-. apply wire_inj in E; auto. subst o'. apply HC. auto.
      * intros H o' t' L' I. apply H; auto. right. auto.
    + exists false. split; auto. split; [discriminate|]. intros H. apply HC. apply H; auto. left. auto.
Qed.
Lemma update_match_spec : forall r q, rule_wf q r -> request_wf q -> exists b, update_match r (match q_key q with Some (n, _) => Some n | None => None end) (q_zone q) (q_rrs q) = Ok b /\ (b = true <-> update_ok r q).
Proof.
  intros r q HW HQ. unfold update_match. destruct (match ru_types r with [] => ru_owner r =? OWNER_NONE | _ => false end) eqn:E.
  - exists true. split; auto. split; auto. intros _ o t LO HI. destruct (ru_types r) eqn:ET; [|discriminate]. unfold rr_ok, OWNER_NAME, OWNER_KEY, OWNER_ZONE, OWNER_NONE in *. split; [auto|]. split; [lia|]. split; lia.
  - cbv zeta. destruct (update_loop_spec r q (q_rrs q) HW HQ ltac:(apply HQ)) as (b & EB & HB). exists b. split; auto.
Qed.

(** ** Address, certificate, key *)
Lemma pin_spec : forall q pins, bytes (q_pin q) -> pins_wf pins -> (cert_pin_check (q_pin q) pins = true <-> pin_ok pins q).
Proof.
  intros q pins HB HP. unfold cert_pin_check, pin_ok. destruct pins as [|p pins]; [tauto|]. destruct (zlen (q_pin q) =? 0) eqn:E.
  - split; [discriminate|]. intros [H|[H _]]; [discriminate|]. destruct (q_pin q); [congruence|]. rewrite zlen_cons in E. pose proof (zlen_nonneg l). lia.
  - rewrite existsb_exists. split.
    + intros (x & I & H). right. split; [intros EE; rewrite EE, zlen_nil in E; lia|]. apply andb_true_iff in H. destruct H as [H1 H2]. unfold pins_wf in HP. rewrite Forall_forall in HP. apply ctm_eq in H2; auto; [rewrite <- H2; auto|lia].
    + intros [H|[_ H]]; [discriminate|]. exists (q_pin q). split; auto. apply andb_true_iff. split; [lia|]. apply ctm_eq; auto.
Qed.
Lemma find_key_spec : forall keys q, Forall (fun k => is_name (k_name k)) keys -> (forall n alg, q_key q = Some (n, alg) -> is_name n) ->
  exists f, find_key keys (q_key q) = Ok f /\ (forall k, f = Some k -> In k keys /\ q_key q = Some (k_name k, k_alg k)) /\ (f = None -> forall k, In k keys -> q_key q <> Some (k_name k, k_alg k)).
Proof.
  intros keys q HK HQ. induction keys as [|k keys IH]; cbn [find_key]; [exists None; split; auto; split; [discriminate|]; intros _ k []|]. destruct (IH (Forall_inv_tail HK)) as (f & EF & H1 & H2). clear IH.
  assert (NO : q_key q <> Some (k_name k, k_alg k) -> find_key keys (q_key q) = Ok f /\ (forall k0, f = Some k0 -> In k0 (k :: keys) /\ q_key q = Some (k_name k0, k_alg k0)) /\ (f = None -> forall k0, In k0 (k :: keys) -> q_key q <> Some (k_name k0, k_alg k0))).
  { intros H. split; auto. split; [intros k0 E; split; [right|]; apply H1; auto|]. intros E k0 [<-|I]; auto. }
  destruct (q_key q) as [[n alg]|] eqn:EQ; [|exists f; apply NO; discriminate]. destruct (HQ n alg eq_refl) as (ln & LN & ->). destruct (Forall_inv HK) as (lk & LK & EK). rewrite EK in *. destruct (dname_is_equal_spec lk ln [] [] LK LN) as (e & HE0 & HE). rewrite !app_nil_r in HE0. rewrite HE0. cbn [rbind]. destruct e; cbn [negb].
  - assert (lk = ln) as -> by (apply HE; auto). destruct (k_alg k =? alg) eqn:EA; cbn [negb].
    + exists (Some k). split; auto. split; [|discriminate]. intros k0 [= <-]. split; [left; auto|]. rewrite EK. f_equal. f_equal. lia.
    + exists f. apply NO. intros [= E]. lia.
  - exists f. apply NO. intros [= E _]. apply wire_inj in E; auto. subst. assert (false = true) by (apply HE; auto). discriminate.
Qed.
Lemma cak_spec : forall a keys pins q deny forward, request_wf q -> Forall (fun k => is_name (k_name k)) keys -> pins_wf pins ->
  exists m, check_addr_key a keys pins q deny forward = Ok m /\ (forall k, m = Some k -> a = true /\ pin_ok pins q /\ key_ok keys q deny forward k) /\ (m = None -> ~ (a = true /\ pin_ok pins q /\ exists k, key_ok keys q deny forward k)).
Proof.
  intros a keys pins q deny forward (Q1 & Q2 & Q3 & Q4 & Q5 & Q6) HK HP. unfold check_addr_key. destruct a; cbn [negb]; [|exists None; split; auto; split; [discriminate|]; intros _ [H _]; discriminate]. destruct (cert_pin_check (q_pin q) pins) eqn:EP; cbn [negb].
  2:{ exists None. split; auto. split; [discriminate|]. intros _ (_ & H & _). apply pin_spec in H; auto. congruence. }
  apply pin_spec in EP; auto. destruct keys as [|k0 keys].
  - eexists. split; [reflexivity|]. unfold key_ok. destruct (match q_key q with None => true | _ => false end || forward || deny) eqn:E.
    + split; [|discriminate]. intros k [= <-]. split; auto. split; auto. left. split; auto. split; auto. destruct (q_key q); cbn [orb] in E; [right; destruct forward; auto|auto].
    + split; [discriminate|]. intros _ (_ & _ & k & [(_ & _ & H)|(k' & _ & [] & _)]). destruct (q_key q), forward, deny; cbn [orb] in E; try discriminate. destruct H as [H|[H|H]]; discriminate.
  - destruct (find_key_spec (k0 :: keys) q HK Q4) as (f & -> & H1 & H2). cbn [rbind]. unfold key_ok. destruct f as [k|].
    + eexists. split; [reflexivity|]. split; [|discriminate]. intros k' [= <-]. split; auto. split; auto. right. exists k. split; auto.
    + eexists. split; [reflexivity|]. split; [discriminate|]. intros _ (_ & _ & k & [(H & _)|(k' & _ & I & H)]); [discriminate|]. eapply H2; eauto.
Qed.
Lemma addr_match_spec : forall l a, Forall addr_ok l -> addr_ok a -> (addr_match l a = true <-> exists m, In m l /\ same_addr m a true).
Proof. intros l a HL HA. unfold addr_match. rewrite existsb_exists. rewrite Forall_forall in HL. split; intros (m & I & H); exists m; (split; [auto|]); [apply c54_same; auto; lia|apply Z.eqb_eq; apply c54_same; auto]. Qed.
Lemma range_match_spec : forall l a, Forall item_wf l -> addr_ok a -> is_ip a -> exists b, addr_range_match l a = Ok b /\ (b = true <-> exists it, In it l /\ item_has it a).
Proof.
  induction l as [|it l IH]; intros a HL HA HI; cbn [addr_range_match]; [exists false; split; auto; split; [discriminate|]; intros (it & [] & _)|]. destruct (IH a (Forall_inv_tail HL) HA HI) as (b & EB & HB).
  assert (ST : forall c, (c = true <-> item_has it a) -> exists b0, (if c then Ok true else addr_range_match l a) = Ok b0 /\ (b0 = true <-> exists it0, In it0 (it :: l) /\ item_has it0 a)).
  { intros c HC. destruct c; [exists true; split; auto; split; auto; intros _; exists it; split; [left; auto|apply HC; auto]|]. exists b. split; auto. rewrite HB. split; [intros (x & I & H); exists x; split; [right; auto|auto]|]. intros (x & [<-|I] & H); [apply HC in H; discriminate|exists x; auto]. }
  destruct it as [n p|mn mx].
  - destruct (Forall_inv HL) as [HN Hp]. destruct (c54_net_match a n p HA HN HI Hp) as (c & -> & HC). cbn [rbind]. apply ST. exact HC.
  - apply ST. cbn [item_has]. tauto.
Qed.
Lemma rmt_proto_spec : forall p rm, check_proto_rmt p rm = true <-> rmt_proto p rm.
Proof. intros p rm. unfold check_proto_rmt, rmt_proto. destruct (rm_quic rm), (rm_tls rm), p; split; try discriminate; try tauto; intros; try (destruct H; discriminate); auto; try (split; auto). Qed.
Definition rmt_ok (q : request) (deny forward : bool) (k : option key) (rm : remote) : Prop := (rm_addrs rm = [] \/ rmt_addr rm (q_addr q)) /\ pin_ok (rm_pins rm) q /\ key_ok (key_list (rm_key rm)) q deny forward k /\ rmt_proto (q_proto q) rm.
Lemma remotes_spec : forall rms q deny forward, request_wf q -> Forall remote_wf rms ->
  exists m, remotes_loop rms q deny forward = Ok m /\ (forall k, m = Some k -> exists rm, In rm rms /\ rmt_ok q deny forward k rm) /\ (m = None -> ~ exists rm k, In rm rms /\ rmt_ok q deny forward k rm).
Proof.
  intros rms q deny forward HQ. induction rms as [|rm rms IH]; intros HW; cbn [remotes_loop]; [exists None; split; auto; split; [discriminate|]; intros _ (rm & k & [] & _)|]. destruct (IH (Forall_inv_tail HW)) as (m0 & E0 & S0 & N0). destruct (Forall_inv HW) as (WA & WP & WK). set (a := match rm_addrs rm with [] => true | l => addr_match l (q_addr q) end). assert (HA : a = true <-> (rm_addrs rm = [] \/ rmt_addr rm (q_addr q))).
  { unfold a, rmt_addr. destruct (rm_addrs rm) as [|x l]; [tauto|]. rewrite addr_match_spec by (auto; apply HQ). split; [auto|]. intros [H|H]; [discriminate|auto]. }
  destruct (cak_spec a (key_list (rm_key rm)) (rm_pins rm) q deny forward HQ WK WP) as (m & -> & HS & HN). cbn [rbind].
  assert (NEXT : (forall k, ~ rmt_ok q deny forward k rm) -> exists m1, remotes_loop rms q deny forward = Ok m1 /\ (forall k, m1 = Some k -> exists rm0, In rm0 (rm :: rms) /\ rmt_ok q deny forward k rm0) /\ (m1 = None -> ~ exists rm0 k, In rm0 (rm :: rms) /\ rmt_ok q deny forward k rm0)).
  { intros H. exists m0. split; auto. split; [intros k E; destruct (S0 k E) as (x & I & R); exists x; split; [right; auto|auto]|]. intros E (x & k & [<-|I] & R); [eapply H; eauto|apply N0; eauto]. }
  destruct m as [k|].
  - destruct (HS k eq_refl) as (H1 & H2 & H3). destruct (check_proto_rmt (q_proto q) rm) eqn:EP.
    + exists (Some k). split; auto. split; [|discriminate]. intros k' [= <-]. exists rm. split; [left; auto|]. split; [apply HA; auto|]. split; auto. split; auto. apply rmt_proto_spec. auto.
    + apply NEXT. intros k' (_ & _ & _ & H). apply rmt_proto_spec in H. congruence.
  - apply NEXT. intros k (R1 & R2 & R3 & R4). apply HN; auto. split; [apply HA; auto|]. split; eauto.
Qed.
Lemma proto_spec : forall p l, check_proto p l = true <-> exists v, In v l /\ Z.land v (proto_mask p) <> 0.
Proof. intros. unfold check_proto. rewrite existsb_exists. split; intros (v & I & H); exists v; (split; [auto|]); [destruct (Z.land v (proto_mask p) =? 0) eqn:E; [discriminate|lia]|destruct (Z.land v (proto_mask p) =? 0) eqn:E; [lia|auto]]. Qed.
Lemma rule_spec : forall r action q forward, rule_wf q r -> request_wf q ->
  (exists b k, rule_eval r action q forward = Ok (inl (b, k)) /\ applies r action q forward /\ (b = true <-> permits r action) /\ (b = true -> exists k0, who r q forward k0 /\ k = match q_key q with Some _ => k0 | None => None end)) \/
  (rule_eval r action q forward = Ok (inr tt) /\ ~ applies r action q forward).
Proof.
  intros r action q forward HW HQ. pose proof HW as (W1 & W2 & W3 & W4 & W5 & W6 & W7). unfold rule_eval.
  assert (WHO : exists m, match ru_remotes r with [] => let* a := match ru_addrs r with [] => Ok true | l => addr_range_match l (q_addr q) end in let* m := check_addr_key a (ru_keys r) (ru_pins r) q (ru_deny r) forward in match m with Some k => Ok (match ru_protos r with [] => Some k | l => if check_proto (q_proto q) l then Some k else None end) | None => Ok None end | rms => remotes_loop rms q (ru_deny r) forward end = Ok m /\ (forall k, m = Some k -> who r q forward k) /\ (m = None -> forall k, ~ who r q forward k)).
  { unfold who. destruct (ru_remotes r) as [|rm rms] eqn:ER.
    - assert (A : exists a, match ru_addrs r with [] => Ok true | l => addr_range_match l (q_addr q) end = Ok a /\ (a = true <-> (ru_addrs r = [] \/ exists it, In it (ru_addrs r) /\ item_has it (q_addr q)))).
      { destruct (ru_addrs r) as [|it l] eqn:EA; [exists true; split; auto; tauto|]. destruct (range_match_spec (it :: l) (q_addr q) W2) as (b & EB & HB); [apply HQ|apply HQ|]. exists b. split; auto. rewrite HB. split; auto. intros [H|H]; [discriminate|auto]. }
      destruct A as (a & -> & HA). cbn [rbind]. destruct (cak_spec a (ru_keys r) (ru_pins r) q (ru_deny r) forward HQ W4 W3) as (m & -> & HS & HN). cbn [rbind]. destruct m as [k|].
      + destruct (HS k eq_refl) as (H1 & H2 & H3). apply HA in H1. assert (P : exists c : bool, (match ru_protos r with [] => Some k | l => if check_proto (q_proto q) l then Some k else None end) = (if c then Some k else None) /\ (c = true <-> (ru_protos r = [] \/ exists v, In v (ru_protos r) /\ Z.land v (proto_mask (q_proto q)) <> 0))).
        { destruct (ru_protos r) as [|v l]; [exists true; split; auto; tauto|]. exists (check_proto (q_proto q) (v :: l)). split; auto. rewrite proto_spec. split; auto. intros [H|H]; [discriminate|auto]. }
        destruct P as (c & -> & HC). destruct c.
        * eexists. split; [reflexivity|]. split; [|discriminate]. intros k' [= <-]. left. split; auto. split; auto. split; auto. split; auto. apply HC. auto.
        * eexists. split; [reflexivity|]. split; [discriminate|]. intros _ k' [(_ & _ & _ & _ & H)|(rm & [] & _)]. apply HC in H. discriminate.
      + eexists. split; [reflexivity|]. split; [discriminate|]. intros _ k' [(_ & H1 & H2 & H3 & _)|(rm & [] & _)]. apply HN; auto. split; [apply HA; auto|]. split; eauto.
    - destruct (remotes_spec (rm :: rms) q (ru_deny r) forward HQ W1) as (m & -> & HS & HN). exists m. split; auto. split.
      + intros k E. right. apply HS in E. auto.
      + intros E k [(H & _)|(x & I & R)]; [discriminate|]. apply HN; auto. exists x, k. auto. }
  destruct WHO as (m & -> & HS & HN). cbn [rbind]. destruct m as [k|]; [|right; split; auto; intros ((k & Hk) & _); eapply HN; eauto]. specialize (HS k eq_refl). cbv zeta.
  set (act := if negb (action =? ACTION_QUERY) then _ else _). assert (ACT : (act = None /\ action <> ACTION_QUERY /\ ru_actions r = []) \/ (exists c, act = Some c /\ (action = ACTION_QUERY \/ ru_actions r <> []) /\ (c = true <-> action = ACTION_QUERY \/ In action (ru_actions r)))).
  { unfold act. destruct (action =? ACTION_QUERY) eqn:EQ; cbn [negb]; [right; exists true; split; auto; split; [left; lia|]; split; auto; intros; left; lia|]. destruct (ru_actions r) as [|x l]; [left; split; auto; split; [lia|auto]|]. right. eexists. split; [reflexivity|]. split; [right; discriminate|]. rewrite existsb_exists. split.
    - intros (y & I & H). right. replace action with y by lia. auto.
    - intros [H|H]; [lia|]. exists action. split; auto. lia. }
  destruct ACT as [(-> & A1 & A2)|(c & -> & A1 & A2)].
  - left. exists false, None. split; auto. split; [split; [eauto|split; [auto|intros _ H; congruence]]|]. split; [|discriminate]. split; [discriminate|]. intros [_ [H|H]]; congruence.
  - destruct c.
    + set (u := if action =? ACTION_UPDATE then _ else _). assert (U : exists b, u = Ok b /\ (b = true <-> (action = ACTION_UPDATE -> update_ok r q))).
      { unfold u. destruct (action =? ACTION_UPDATE) eqn:EU; [|exists true; split; auto; split; auto; lia]. destruct (update_match_spec r q HW HQ) as (b & EB & HB). exists b. split; auto. rewrite HB. split; auto. intros H; apply H; lia. }
      destruct U as (b & -> & HU). cbn [rbind]. destruct b; cbn [negb].
      * left. assert (AP : applies r action q forward) by (split; [eauto|]; split; [assert (true = true) as T by auto; apply A2 in T; tauto|]; intros H _; apply HU; auto). destruct (ru_deny r) eqn:ED.
        -- exists false, None. split; auto. split; auto. split; [|discriminate]. split; [discriminate|]. intros [H _]. congruence.
        -- eexists. eexists. split; [reflexivity|]. split; auto. split; [split; auto; intros _; split; auto|]. intros _. exists k. split; auto.
      * right. split; auto. intros (_ & H1 & H2). assert (action = ACTION_UPDATE -> update_ok r q); [|assert (false = true) by (apply HU; auto); discriminate]. intros E. apply H2; auto. destruct A1 as [A1|A1]; auto. unfold ACTION_QUERY, ACTION_UPDATE in *. lia.
    + right. split; auto. intros (_ & [H|[H|H]] & _); [assert (false = true) by (apply A2; auto); discriminate| |assert (false = true) by (apply A2; auto); discriminate]. destruct A1 as [A1|A1]; [assert (false = true) by (apply A2; auto); discriminate|congruence].
Qed.
(** ** The rules are tried in order; the first one that concerns the request decides. *)
Theorem c28_first_match : forall rules action master ddns q, Forall (rule_wf q) rules -> request_wf q ->
  let forward := (action =? ACTION_UPDATE) && master && ddns in
  exists b k, acl_allowed rules action master ddns q = Ok (b, k) /\
  (b = true <-> exists pre r post, rules = pre ++ r :: post /\ Forall (fun x => ~ applies x action q forward) pre /\ applies r action q forward /\ permits r action).
Proof.
  intros rules action master ddns q HW HQ forward. unfold acl_allowed. fold forward. induction rules as [|r rules IH]; cbn [acl_loop].
  - exists false, None. split; auto. split; [discriminate|]. intros (pre & r & post & H & _). destruct pre; discriminate.
  - destruct (rule_spec r action q forward (Forall_inv HW) HQ) as [(b & k & -> & HA & HB & _)|[-> HN]]; cbn [rbind].
    + exists b, k. split; auto. rewrite HB. split; [intros HP; exists [], r, rules; auto|]. intros (pre & r' & post & E & HF & HA' & HP). destruct pre as [|x pre]; cbn [app] in E; injection E as <- E; auto. pose proof (Forall_inv HF). contradiction.
    + destruct (IH (Forall_inv_tail HW)) as (b & k & EB & HB). exists b, k. split; auto. rewrite HB. split.
      * intros (pre & r' & post & -> & HF & HR). exists (r :: pre), r', post. split; auto.
      * intros (pre & r' & post & E & HF & HA' & HP). destruct pre as [|x pre]; cbn [app] in E; injection E as <- E; [contradiction|]. exists pre, r', post. split; auto. split; [eapply Forall_inv_tail; eauto|auto].
Qed.
(** No rule concerns the request: refused. *)
Theorem c28_default_deny : forall rules action master ddns q, Forall (rule_wf q) rules -> request_wf q ->
  Forall (fun x => ~ applies x action q ((action =? ACTION_UPDATE) && master && ddns)) rules -> exists k, acl_allowed rules action master ddns q = Ok (false, k).
Proof.
  intros rules action master ddns q HW HQ HN. destruct (c28_first_match rules action master ddns q HW HQ) as (b & k & E & HB). exists k. destruct b; auto. destruct (proj1 HB eq_refl) as (pre & r & post & -> & _ & HA & _). apply Forall_app in HN. destruct HN as [_ HN]. apply Forall_inv in HN. contradiction.
Qed.
(** A permitted signed request carries a key of the configuration with that name and algorithm, whose secret will be
    used to verify it; the only exception are updates forwarded to the primary. *)
Theorem c28_key : forall rules action master ddns q n alg k, Forall (rule_wf q) rules -> request_wf q -> q_key q = Some (n, alg) -> acl_allowed rules action master ddns q = Ok (true, k) ->
  (exists k' r, k = Some k' /\ k_name k' = n /\ k_alg k' = alg /\ In r rules /\ (In k' (ru_keys r) \/ exists rm, In rm (ru_remotes r) /\ rm_key rm = Some k')) \/
  (k = None /\ action = ACTION_UPDATE /\ master = true /\ ddns = true).
Proof.
  intros rules action master ddns q n alg k HW HQ EK. unfold acl_allowed. set (forward := _ && ddns). induction rules as [|r rules IH]; cbn [acl_loop]; [discriminate|]. intros E. destruct (rule_spec r action q forward (Forall_inv HW) HQ) as [(b & k0 & E0 & HA & HB & HK)|[E0 HN]]; rewrite E0 in E; cbn [rbind] in E.
  - injection E as -> ->. destruct (HK eq_refl) as (k1 & HWHO & ->). rewrite EK in *. assert (ND : ru_deny r = false) by (apply HB; auto). assert (KO : forall keys, key_ok keys q (ru_deny r) forward k1 -> (exists k', k1 = Some k' /\ In k' keys /\ k_name k' = n /\ k_alg k' = alg) \/ (k1 = None /\ forward = true)).
    { intros keys [(-> & -> & H)|(k' & -> & I & H)]; [right; split; auto; rewrite EK, ND in H; destruct H as [H|[H|H]]; [discriminate|auto|discriminate]|left; exists k'; rewrite EK in H; injection H as -> ->; auto]. }
    assert (FW : forward = true -> action = ACTION_UPDATE /\ master = true /\ ddns = true) by (unfold forward; intros H; apply andb_true_iff in H; destruct H as [H ->]; apply andb_true_iff in H; destruct H as [H ->]; split; [lia|auto]).
    destruct HWHO as [(_ & _ & _ & H & _)|(rm & I & _ & _ & H & _)]; apply KO in H; destruct H as [(k' & -> & I' & H1 & H2)|[-> H]]; try (right; split; auto; fail).
    + left. exists k', r. split; auto. split; auto. split; auto. split; [left; auto|left; auto].
    + left. exists k', r. split; auto. split; auto. split; auto. split; [left; auto|right]. exists rm. split; auto. destruct (rm_key rm) as [kk|]; cbn [key_list In] in I'; [destruct I' as [->|[]]; auto|destruct I'].
  - destruct (IH (Forall_inv_tail HW) E) as [(k' & r' & H1 & H2 & H3 & H4 & H5)|H]; [left; exists k', r'; split; auto; split; auto; split; auto; split; [right; auto|auto]|right; auto].
Qed.
(** An unsigned request, or one signed with another key, never concerns a rule that lists keys. *)
Theorem c28_unlisted_key : forall r action q forward, ru_remotes r = [] -> ru_keys r <> [] -> (forall k, In k (ru_keys r) -> q_key q <> Some (k_name k, k_alg k)) -> ~ applies r action q forward.
Proof. intros r action q forward HR HK HN ((k & [(_ & _ & _ & [(H & _)|(k' & _ & I & H)] & _)|(rm & I & _)]) & _); [contradiction|eapply HN; eauto|rewrite HR in I; destruct I]. Qed.
(** ** Automatic rules for the configured primaries and secondaries *)
Theorem c28_remotes : forall auto rms q, Forall remote_wf rms -> request_wf q -> exists b k, rmt_allowed auto rms q = Ok (b, k) /\
  (b = true <-> auto = true /\ exists rm k0, In rm rms /\ rm_auto rm = true /\ rmt_addr rm (q_addr q) /\ pin_ok (rm_pins rm) q /\ key_ok (key_list (rm_key rm)) q false false k0 /\ rmt_proto (q_proto q) rm) /\
  (b = true -> forall n alg, q_key q = Some (n, alg) -> exists k', k = Some k' /\ k_name k' = n /\ k_alg k' = alg /\ exists rm, In rm rms /\ rm_key rm = Some k').
Proof.
  intros auto rms q HW HQ. unfold rmt_allowed. destruct auto; cbn [negb]; [|exists false, None; split; auto; split; [split; [discriminate|intros [H _]; discriminate]|discriminate]]. induction rms as [|rm rms IH]; cbn [rmt_loop].
  - exists false, None. split; auto. split; [|discriminate]. split; [discriminate|]. intros (_ & rm & k & [] & _).
  - destruct (IH (Forall_inv_tail HW)) as (b & k & EB & HB & HK). destruct (Forall_inv HW) as (WA & WP & WK). clear IH.
    assert (NEXT : (forall k0, ~ (rm_auto rm = true /\ rmt_addr rm (q_addr q) /\ pin_ok (rm_pins rm) q /\ key_ok (key_list (rm_key rm)) q false false k0 /\ rmt_proto (q_proto q) rm)) -> exists b0 k1, rmt_loop rms q = Ok (b0, k1) /\ (b0 = true <-> true = true /\ exists rm0 k0, In rm0 (rm :: rms) /\ rm_auto rm0 = true /\ rmt_addr rm0 (q_addr q) /\ pin_ok (rm_pins rm0) q /\ key_ok (key_list (rm_key rm0)) q false false k0 /\ rmt_proto (q_proto q) rm0) /\ (b0 = true -> forall n alg, q_key q = Some (n, alg) -> exists k', k1 = Some k' /\ k_name k' = n /\ k_alg k' = alg /\ exists rm0, In rm0 (rm :: rms) /\ rm_key rm0 = Some k')).
    { intros H. exists b, k. split; auto. split.
      - rewrite HB. split; intros (_ & x & k0 & I & R); (split; [auto|]); [exists x, k0; split; [right; auto|auto]|]. destruct I as [<-|I]; [exfalso; eapply H; eauto|exists x, k0; auto].
      - intros E n alg EQ. destruct (HK E n alg EQ) as (k' & H1 & H2 & H3 & x & I & H4). exists k'. split; auto. split; auto. split; auto. exists x. split; [right; auto|auto]. }
    destruct (rm_auto rm) eqn:EA; cbn [negb]; [|apply NEXT; intros k0 (H & _); discriminate]. destruct (check_proto_rmt (q_proto q) rm) eqn:EP; cbn [negb]; [|apply NEXT; intros k0 (_ & _ & _ & _ & H); apply rmt_proto_spec in H; congruence]. pose proof HQ as (Q1 & Q2 & Q3 & Q4 & Q5 & Q6). destruct (cert_pin_check (q_pin q) (rm_pins rm)) eqn:EC; cbn [negb]; [|apply NEXT; intros k0 (_ & _ & H & _); apply pin_spec in H; auto; congruence].
    apply rmt_proto_spec in EP. apply pin_spec in EC; auto. set (kk := match rm_key rm with Some k => _ | None => _ end). assert (K : exists m, kk = Ok m /\ (forall k0, m = Some k0 -> key_ok (key_list (rm_key rm)) q false false k0) /\ (m = None -> forall k0, ~ key_ok (key_list (rm_key rm)) q false false k0)).
    { unfold kk, key_ok. destruct (rm_key rm) as [k1|]; cbn [key_list] in *.
      - destruct (find_key_spec [k1] q WK Q4) as (f & -> & H1 & H2). cbn [rbind]. destruct f as [k2|]; (eexists; split; [reflexivity|]).
        + split; [|discriminate]. intros k0 [= <-]. right. exists k2. split; auto.
        + split; [discriminate|]. intros _ k0 [(H & _)|(k' & _ & I & H)]; [discriminate|eapply H2; eauto].
      - eexists. split; [reflexivity|]. destruct (q_key q); (split; [try discriminate|try discriminate]).
        + intros _ k0 [(_ & _ & [H|[H|H]])|(k' & _ & [] & _)]; discriminate.
        + intros k0 [= <-]. left. auto. }
    destruct K as (m & -> & KS & KN). cbn [rbind]. destruct m as [k0|]; [|apply NEXT; intros k0 (_ & _ & _ & H & _); eapply KN; eauto]. specialize (KS k0 eq_refl). destruct (addr_match (rm_addrs rm) (q_addr q)) eqn:EM; cbn [negb]; [|apply NEXT; intros k1 (_ & H & _); apply addr_match_spec in H; auto; congruence]. apply addr_match_spec in EM; auto.
    eexists. eexists. split; [reflexivity|]. split.
    + split; auto. intros _. split; auto. exists rm, k0. split; [left; auto|]. split; auto.
    + intros _ n alg EK. rewrite EK. destruct KS as [(_ & _ & [H|[H|H]])|(k' & -> & I & H)]; try discriminate; [congruence|]. exists k'. split; auto. rewrite EK in H. injection H as -> ->. split; auto. split; auto. exists rm. split; [left; auto|]. destruct (rm_key rm); cbn [key_list In] in I; [destruct I as [->|[]]; auto|destruct I].
Qed.
(** The whole check: automatic rules (never for updates), then the rules of the zone. *)
Theorem c28_check : forall auto masters notifies rules action master ddns q, Forall remote_wf masters -> Forall remote_wf notifies -> Forall (rule_wf q) rules -> request_wf q ->
  exists b k, process_query_acl_check auto masters notifies rules action master ddns q = Ok (b, k) /\
  (b = true <-> (action <> ACTION_UPDATE /\ exists k, rmt_allowed auto (if action =? 1 then masters else notifies) q = Ok (true, k)) \/ exists k, acl_allowed rules action master ddns q = Ok (true, k)).
Proof.
  intros auto masters notifies rules action master ddns q H1 H2 H3 HQ. unfold process_query_acl_check. destruct (c28_first_match rules action master ddns q H3 HQ) as (b2 & k2 & E2 & _). destruct (action =? ACTION_UPDATE) eqn:EU; cbn [negb].
  - cbn [rbind]. exists b2, k2. split; auto. split; [intros ->; right; eauto|]. intros [[H _]|[k H]]; [lia|congruence].
  - assert (HR : Forall remote_wf (if action =? 1 then masters else notifies)) by (destruct (action =? 1); auto). destruct (c28_remotes auto _ q HR HQ) as (b1 & k1 & -> & _). cbn [rbind]. destruct b1.
    + exists true, k1. split; auto. split; auto. intros _. left. split; [lia|eauto].
    + exists b2, k2. split; auto. split; [intros ->; right; eauto|]. intros [[_ [k H]]|[k H]]; congruence.
Qed.
(** A relative name whose last byte is zero is taken for an absolute one and read behind its end. *)
Theorem c28_relative_null_refuted : exists o zone nm, is_name o /\ is_name zone /\ nm = prefix_wire [[97; 0]] /\ match_names o zone [nm] MATCH_PATTERN = UB.
Proof. exists (wire [[97; 0]; [98]]), (wire [[98]]), [2; 97; 0]. split; [exists [[97; 0]; [98]]; split; [|auto]; repeat constructor; cbv; try discriminate; auto|]. split; [exists [[98]]; split; [|auto]; repeat constructor; cbv; try discriminate; auto|]. split; reflexivity. Qed.
(** Concrete case: an update signed with a listed key, restricted to one type and the owner "k.z". *)
Example c28_case :
  let k := mkkey (wire [[107]]) 5 [1; 2; 3] in
  let a := SIn4 [10; 0; 0; 1] [0; 53] in
  let r := mkrule [] false [ANet (SIn4 [10; 0; 0; 0] [0; 0]) 8] [k] [] [] [3] [16] OWNER_NAME MATCH_SUBEQ [[1; 107]] in
  let q := mkreq a (Some (wire [[107]], 5)) [] UDP (wire [[122]]) [(wire [[107]; [122]], 16)] in
  rule_wf q r /\ request_wf q /\ applies r ACTION_UPDATE q false /\ permits r ACTION_UPDATE.
Proof.
  intros k a r q. assert (L1 : forall c, byte c -> legal_label [c]) by (intros c Hc; split; [cbv; split; discriminate|constructor; [auto|constructor]]). assert (BY : forall c, 0 <= c < 256 -> byte c) by auto.
  assert (N1 : forall c, 0 <= c < 256 -> is_name (wire [[c]])) by (intros; exists [[c]]; split; [constructor; [apply L1; auto|constructor]|auto]). assert (AO : forall x y z w p, 0 <= x < 256 -> 0 <= y < 256 -> 0 <= z < 256 -> 0 <= w < 256 -> 0 <= p < 256 -> addr_ok (SIn4 [x; y; z; w] [0; p])).
  { intros. cbn [addr_ok]. split; [repeat (constructor; [unfold byte; lia|]); constructor|]. split; [reflexivity|]. split; [repeat (constructor; [unfold byte; lia|]); constructor|reflexivity]. }
  assert (FN : full_name (wire [[122]]) [1; 107] [[107]; [122]]) by (split; [constructor; [apply L1; apply BY; lia|constructor; [apply L1; apply BY; lia|constructor]]|right; exists [[107]], [[122]]; repeat split; try reflexivity; try discriminate]).
  assert (RW : rule_wf q r). { split; [constructor|]. split; [constructor; [split; [apply AO; lia|lia]|constructor]|]. split; [constructor|]. split; [constructor; [apply N1; lia|constructor]|]. split; [constructor; [eauto|constructor]|]. cbv; split; split; discriminate. }
  assert (QW : request_wf q). { split; [apply AO; lia|]. split; [exact I|]. split; [constructor|]. split; [intros n alg [= <- _]; apply N1; lia|]. split; [apply N1; lia|]. constructor; [|constructor]. exists [[107]; [122]]. split; [apply FN|auto]. }
  split; auto. split; auto. split; [|split; [auto|right; discriminate]]. split; [|split; [right; right; left; auto|]].
  - exists (Some k). left. split; auto. split; [right; eexists; split; [left; reflexivity|]; split; reflexivity|]. split; [left; auto|]. split; [right; exists k; split; [auto|split; [left; auto|auto]]|left; auto].
  - intros _ _ o t LO [E|[]]. injection E as E <-. change (wire [[107]; [122]] = wire o) in E. symmetry in E. apply wire_inj in E; [|auto|apply FN]. subst o. split; [right; left; auto|]. split; [intros H; discriminate H|]. split; [intros H; discriminate H|]. intros _ _. exists [1; 107], [[107]; [122]]. split; [left; auto|]. split; auto. left. split; auto. exists []. auto.
Qed.
Print Assumptions c28_first_match. Print Assumptions c28_key. Print Assumptions c28_check.
