(** Proofs about signing and validation: the zone validated, and signed again. *)
From Coq Require Import Permutation.
From Verif Require Import Base SerialModel SerialSpec SerialProofs KeyModel SignModel SignSpec SignProofs SignProofs2 SignProofs3 SignProofs4 SignProofs5.

(** *** Signing again *)
Lemma filter_all : forall (A : Type) (f : A -> bool) l, (forall a, In a l -> f a = true) -> filter f l = l.
Proof. intros A f l. induction l as [|a l IH]; intros H; cbn [filter]; [reflexivity|]. rewrite (H a (or_introl eq_refl)), IH; [reflexivity|]. intros b Hb. apply H. right. exact Hb. Qed.
Lemma apply_nothing : forall nd x, ch_rem x = [] -> ch_add x = [] -> apply_node nd x = nd.
Proof.
  intros nd x Hr Ha. unfold apply_node. rewrite Hr, Ha. cbn [fold_left]. rewrite filter_all; [destruct nd; reflexivity|]. intros a _. reflexivity.
Qed.
Lemma forall2_map_self : forall (A B : Type) (R : A -> B -> Prop) (Q : B -> B -> Prop) (f : B -> B) l m,
  Forall2 R l m -> (forall a b, In a l -> In b m -> R a b -> Q (f b) (f b)) -> Forall2 Q (map f m) (map f m).
Proof.
  intros A B R Q f l m F. induction F as [|a b l m X F IH]; intros H; cbn [map]; constructor.
  - apply (H a b); [left; reflexivity|left; reflexivity|exact X].
  - apply IH. intros a' b' Ha Hb. apply H; right; assumption.
Qed.
Lemma tree_again : forall c keys nds xs c2 t2, 0 < t2 -> settings_ok c -> crypto_ok (c_crypto c) -> zone_ok c keys nds -> Forall2 (signed_node c keys) nds xs ->
  settings_ok c2 -> compare_ok c2 keys -> keys_apart c2 keys -> c_crypto c2 = c_crypto c -> c_drop c2 = false ->
  (forall k, In k keys -> (z_zsk (k_z k) || z_ksk (k_z k)) = true) ->
  (forall nd' s, In nd' xs -> In s (n_sigs nd') -> fresh_strict (c_now c2) (margin c2) (s_hdr s)) ->
  exists e, zone_tree_sign c2 keys (fun _ => 0) t2 (map set_signed xs) = Ok (map set_signed xs, e).
Proof.
  intros c keys nds xs c2 t2 Ht Hs Hc Hz F Hs2 Hcmp Hap Ec Hd Hrole Hfr.
  assert (S2 : Forall2 (signed_node c2 keys) (map set_signed xs) (map set_signed xs)).
  { eapply forall2_map_self; [exact F|]. intros a b Ha Hb X. destruct (Hz a Ha) as (P1 & P2 & P3). destruct X as [(A & ->)|(A & x & B & ->)].
    - left. split; [exact A|reflexivity].
    - destruct (node_empty (set_signed (apply_node a x))) eqn:En; [left; auto|]. right. split; [exact En|].
      destruct (sign_again c keys a x c2 (set_signed (apply_node a x)) P1 Hs Hc P2 P3 B Hs2 Hcmp Hap Ec Hd) as (x2 & X1 & X2 & X3); auto.
      + intros s Hin. apply (Hfr (apply_node a x)); [exact Hb|exact Hin].
      + exists x2. split; [exact X1|]. symmetry. apply apply_nothing; assumption. }
  destruct (tree_total c2 keys t2 _ (signed_ok _ _ _ _ S2)) as (n2 & e2 & E). exists e2. rewrite E.
  pose proof (tree_signed _ _ _ _ _ _ _ Ht E) as S3. rewrite (signed_fun _ _ _ _ _ S3 S2). reflexivity.
Qed.
Lemma set_signed_twice : forall l, map set_signed (map set_signed l) = map set_signed l.
Proof. intros l. rewrite map_map. apply map_ext. intros a. reflexivity. Qed.
Lemma zone_again : forall c keys start t1 z z1 z2 e c2 t2, settings_ok c -> crypto_ok (c_crypto c) -> zone_ok c keys (fst z ++ snd z) ->
  knot_zone_sign c keys start t1 z = Ok (z1, z2, e) ->
  0 < t2 -> settings_ok c2 -> compare_ok c2 keys -> keys_apart c2 keys -> c_crypto c2 = c_crypto c -> c_drop c2 = false ->
  (forall k, In k keys -> (z_zsk (k_z k) || z_ksk (k_z k)) = true) ->
  (forall nd' s, In nd' (z1 ++ z2) -> In s (n_sigs nd') -> fresh_strict (c_now c2) (c_refresh c2 + c_prerefresh c2) (s_hdr s)) ->
  exists e2, knot_zone_sign c2 keys (fun _ => 0) t2 (z1, z2) = Ok (z1, z2, e2).
Proof.
  intros c keys start t1 (na, nb) z1 z2 e c2 t2 Hs Hc Hz H Ht2 Hs2 Hcmp Hap Ec Hd Hrole Hfr. cbn [fst snd] in *. unfold knot_zone_sign in H. cbn [fst snd] in H.
  destruct (t1 <? 1) eqn:E1; [discriminate|]. assert (H1 : 0 < t1) by lia.
  destruct (zone_tree_sign c keys start t1 na) as [(xa, ea)|?| |] eqn:Ea; cbn [rbind] in H; try discriminate.
  destruct (zone_tree_sign c keys start t1 nb) as [(xb, eb)|?| |] eqn:Eb; cbn [rbind] in H; try discriminate.
  injection H as <- <- <-. apply tree_signed in Ea; [|exact H1]. apply tree_signed in Eb; [|exact H1].
  unfold knot_zone_sign. cbn [fst snd]. assert (t2 <? 1 = false) as -> by lia.
  destruct (tree_again c keys na xa c2 t2) as (ea2 & ->); auto.
  { intros nd Hin. apply Hz. apply in_or_app. auto. }
  { intros nd' s Hin Hs'. apply (Hfr (set_signed nd')); [apply in_or_app; left; apply in_map; exact Hin|exact Hs']. }
  cbn [rbind]. destruct (tree_again c keys nb xb c2 t2) as (eb2 & ->); auto.
  { intros nd Hin. apply Hz. apply in_or_app. auto. }
  { intros nd' s Hin Hs'. apply (Hfr (set_signed nd')); [apply in_or_app; right; apply in_map; exact Hin|exact Hs']. }
  cbn [rbind]. rewrite !set_signed_twice. eauto.
Qed.

(** *** No churn and the number of threads, on the zone *)
Lemma zone_no_churn : forall c keys start threads z z1 z2 e, settings_ok c -> crypto_ok (c_crypto c) -> compare_ok c keys ->
  (forall nd, In nd (fst z ++ snd z) -> node_ok nd) ->
  knot_zone_sign c keys start threads z = Ok (z1, z2, e) -> Forall2 (no_churn c keys) (fst z ++ snd z) (z1 ++ z2).
Proof.
  intros c keys start threads (na, nb) z1 z2 e Hs Hc Hcmp Hz H. cbn [fst snd] in *. unfold knot_zone_sign in H. cbn [fst snd] in H.
  destruct (threads <? 1) eqn:Et; [discriminate|]. assert (Ht : 0 < threads) by lia.
  destruct (zone_tree_sign c keys start threads na) as [(xa, ea)|?| |] eqn:Ea; cbn [rbind] in H; try discriminate.
  destruct (zone_tree_sign c keys start threads nb) as [(xb, eb)|?| |] eqn:Eb; cbn [rbind] in H; try discriminate.
  injection H as <- <- <-. apply tree_signed in Ea; [|exact Ht]. apply tree_signed in Eb; [|exact Ht].
  assert (G : forall a b, In a (na ++ nb) -> signed_node c keys a b -> no_churn c keys a (set_signed b)).
  { intros a b Hin [(A & ->)|(A & x & B & ->)]; [intros s Hs'; left; exact Hs'|]. apply (node_no_churn c keys a x); auto. }
  apply Forall2_app; (eapply map_forall2; [|eassumption]); intros a b Hin X; apply G; auto; apply in_or_app; auto.
Qed.

(** *** Validation of the zone *)
Lemma validate_node_total : forall c keys nd e, Z.of_nat (length keys) <= 127 -> validate_node c keys nd = Ok e -> time64 e.
Proof.
  intros c keys nd e Hn H. unfold validate_node in H.
  destruct (validate_rrsets c keys nd (n_rrs nd) 0) as [e0|?| |] eqn:Ev; cbn [rbind] in H; try discriminate.
  destruct (existsb (fun s => s_type s =? T_RRSIG) (n_sigs nd)); [discriminate|]. destruct (ch_rem (remove_standalone_rrsigs nd)); [|discriminate]. injection H as ->.
  apply validate_rrsets_ok in Ev; [|exact Hn|cbv; split; [discriminate|reflexivity]]. apply Ev.
Qed.
Lemma validate_nodes_ok : forall c keys nds e0 e, Z.of_nat (length keys) <= 127 -> time64 e0 -> validate_nodes c keys nds e0 = Ok e ->
  time64 e /\ (forall t, lower e0 t -> lower e t) /\
  forall nd, In nd nds -> exists x, validate_node c keys nd = Ok x /\ forall t, lower x t -> lower e t.
Proof.
  intros c keys. induction nds as [|nd nds IH]; intros e0 e Hn Te H; cbn [validate_nodes] in H.
  - injection H as <-. split; [exact Te|split; [auto|intros nd []]].
  - destruct (validate_node c keys nd) as [x|?| |] eqn:Ev; cbn [rbind] in H; try discriminate. pose proof (validate_node_total _ _ _ _ Hn Ev) as Tx.
    destruct (IH _ _ Hn (min_time64 _ _ Te Tx) H) as (A & B & C). split; [exact A|]. split; [intros t Ht; apply B; apply min_lower_l; auto|].
    intros nd' [<-|Hin]; [|apply C; exact Hin]. exists x. split; [exact Ev|]. intros t Ht. apply B. apply min_lower_r; auto.
Qed.
Lemma zone_validated : forall c keys nds e, Z.of_nat (length keys) <= 127 -> 0 < c_now c < 2 ^ 63 -> c_unsafe_expired c = false -> crypto_ok (c_crypto c) ->
  (forall nd, In nd nds -> node_ok nd /\ flag_ok c keys nd /\ times_ok c 0 nd) ->
  validate_nodes c keys nds 0 = Ok e -> forall nd, In nd nds -> node_valid c keys nd /\ valid_until c keys e nd.
Proof.
  intros c keys nds e Hn Hnow Hu Hc Hz H nd Hin. destruct (Hz nd Hin) as (P1 & P2 & P3).
  destruct (validate_nodes_ok c keys nds 0 e Hn) as (Te & _ & A); [cbv; split; [discriminate|reflexivity]|exact H|].
  destruct (A nd Hin) as (x & Ex & L). destruct (validated c keys nd x Hn Hnow Hu Hc P2 P3 P1 Ex) as (V & U). split; [exact V|].
  intros r Hr Hm. destruct (U r Hr Hm) as (k & s & te & B1 & B2 & B3 & B4 & B5 & B6). exists k, s, te.
  repeat match goal with |- _ /\ _ => split end; auto; assert (X : lower e te) by (apply L; split; lia); destruct X; unfold time64 in Te; lia.
Qed.
Lemma zone_validates : forall c keys nds e0, Z.of_nat (length keys) <= 127 -> 0 < c_now c < 2 ^ 63 -> crypto_ok (c_crypto c) -> compare_ok c keys ->
  (forall nd, In nd nds -> node_ok nd /\ node_valid_strict c keys nd) -> exists e, validate_nodes c keys nds e0 = Ok e.
Proof.
  intros c keys. induction nds as [|nd nds IH]; intros e0 Hn Hnow Hc Hcmp Hz; cbn [validate_nodes]; [eauto|].
  destruct (Hz nd (or_introl eq_refl)) as (P1 & P2). destruct (validates c keys nd Hn Hnow Hc Hcmp P1 P2) as (x & ->). cbn [rbind].
  apply IH; auto. intros nd' Hin. apply Hz. right. exact Hin.
Qed.

(** *** A signed zone is validated *)
Lemma signed_node_ok : forall c keys nd nd', node_ok nd -> signed_node c keys nd nd' -> node_ok (set_signed nd').
Proof.
  intros c keys nd nd' Ho [(A & ->)|(A & x & B & ->)]; [exact Ho|]. destruct (after_iff c keys nd x Ho B) as (_ & _ & _ & _ & A2 & _). destruct Ho as (D1 & D2 & D3).
  split; [exact D1|split; [|exact D3]]. cbn [set_signed n_sigs]. assumption.
Qed.
Lemma signed_valid : forall c keys c2 nd nd', node_ok nd -> well_signed c keys nd nd' -> c_crypto c2 = c_crypto c ->
  (forall k, In k keys -> k_name k = c_apex c2) ->
  (forall k1 k2, In k1 keys -> In k2 keys -> k_tag k1 = k_tag k2 -> z_alg (k_z k1) = z_alg (k_z k2) -> k1 = k2) ->
  (exists k, In k keys /\ z_ksk (k_z k) = true /\ z_active (k_z k) = true) ->
  (exists k, In k keys /\ z_zsk (k_z k) = true /\ z_active (k_z k) = true) ->
  (forall s, In s (n_sigs nd') -> fresh_strict (c_now c2) 0 (s_hdr s)) ->
  node_valid_strict c2 keys nd'.
Proof.
  intros c keys c2 nd nd' (D1 & _) (E1 & E2 & E3 & E4 & W1 & W2 & _) Ec Hap Htag (kk & K1 & K2 & K3) (kz & Z1 & Z2 & Z3) Hfr.
  assert (MS : forall r, must_sign nd' r <-> must_sign nd r) by (intros r; unfold must_sign; rewrite E2, E3; reflexivity).
  assert (VE : forall k r s, verifies c2 k r s <-> verifies c k r s) by (intros; unfold verifies; rewrite Ec; reflexivity).
  assert (IU : forall k r, In k keys -> in_use k r -> may_sign c2 k r).
  { intros k r Hk [(X & Y & _)|(X & Y & _)]; rewrite (Hap k Hk) in X; [left|right]; auto. }
  split; [|split].
  - intros r Hr Hm. rewrite E4 in Hr. apply MS in Hm.
    assert (exists k, In k keys /\ in_use k r) as (k & Hk & Hu).
    { destruct (key_used c2 kk r) eqn:Eu.
      - apply key_used_iff in Eu. destruct Eu as [(X & _)|(X & _)].
        + exists kk. split; [exact K1|]. left. rewrite (Hap kk K1). auto.
        + exists kz. split; [exact Z1|]. right. rewrite (Hap kz Z1). auto.
      - exists kz. split; [exact Z1|]. right. rewrite (Hap kz Z1). repeat split; auto. intros X.
        enough (key_used c2 kk r = true) by congruence. apply key_used_iff. left. auto. }
    destruct (W1 r k Hr Hm Hk Hu) as (s & Hs & (G1 & _)). exists k, s. auto.
  - intros s Hs. destruct (W2 s Hs) as (r & k & Hr & Hm & _ & _ & ((_ & _ & G) & _)). exists r. rewrite E4. split; [exact Hr|split; [apply MS; exact Hm|exact G]].
  - intros r k s Hr Hm Hk Hmay Hs (N1 & N2 & N3). split; [|apply Hfr; exact Hs]. rewrite E4 in Hr.
    destruct (W2 s Hs) as (r' & k' & Hr' & Hm' & Hk' & Hu' & ((G1 & G2 & G3) & G4 & _)).
    assert (r' = r) as -> by (eapply same_type; eauto; congruence). assert (k' = k) as -> by (apply Htag; auto; congruence). apply VE. exact G4.
Qed.
Lemma sign_validate : forall c keys start threads z z1 z2 e c2, settings_ok c -> crypto_ok (c_crypto c) -> zone_ok c keys (fst z ++ snd z) ->
  knot_zone_sign c keys start threads z = Ok (z1, z2, e) ->
  Z.of_nat (length keys) <= 127 -> 0 < c_now c2 < 2 ^ 63 -> c_crypto c2 = c_crypto c -> compare_ok c2 keys ->
  (forall k, In k keys -> k_name k = c_apex c2) ->
  (forall k1 k2, In k1 keys -> In k2 keys -> k_tag k1 = k_tag k2 -> z_alg (k_z k1) = z_alg (k_z k2) -> k1 = k2) ->
  (exists k, In k keys /\ z_ksk (k_z k) = true /\ z_active (k_z k) = true) ->
  (exists k, In k keys /\ z_zsk (k_z k) = true /\ z_active (k_z k) = true) ->
  (forall nd' s, In nd' (z1 ++ z2) -> In s (n_sigs nd') -> fresh_strict (c_now c2) 0 (s_hdr s)) ->
  exists e2, validate_nodes c2 keys (z1 ++ z2) 0 = Ok e2.
Proof.
  intros c keys start threads (na, nb) z1 z2 e c2 Hs Hc Hz H Hn Hnow Ec Hcmp Hap Htag Hk Hz2 Hfr.
  apply zone_validates; auto; [rewrite Ec; exact Hc|]. cbn [fst snd] in *. unfold knot_zone_sign in H. cbn [fst snd] in H.
  destruct (threads <? 1) eqn:Et; [discriminate|]. assert (Ht : 0 < threads) by lia.
  destruct (zone_tree_sign c keys start threads na) as [(xa, ea)|?| |] eqn:Ea; cbn [rbind] in H; try discriminate.
  destruct (zone_tree_sign c keys start threads nb) as [(xb, eb)|?| |] eqn:Eb; cbn [rbind] in H; try discriminate.
  injection H as <- <- <-. apply tree_signed in Ea; [|exact Ht]. apply tree_signed in Eb; [|exact Ht].
  assert (F : Forall2 (signed_node c keys) (na ++ nb) (xa ++ xb)) by (apply Forall2_app; assumption).
  rewrite <- map_app in *. intros nd Hin. apply in_map_iff in Hin. destruct Hin as (b & <- & Hb).
  assert (exists a, In a (na ++ nb) /\ signed_node c keys a b) as (a & Ha & Hab).
  { clear - F Hb. induction F as [|a b' l m X F IH]; [destruct Hb|]. destruct Hb as [->|Hb]; [exists a; split; [left; reflexivity|exact X]|].
    destruct (IH Hb) as (a' & A & B). exists a'. split; [right; exact A|exact B]. }
  destruct (Hz a Ha) as (P1 & P2 & P3). split; [eapply signed_node_ok; eauto|].
  eapply (signed_valid c keys c2 a); eauto; [eapply signed_well; eauto|]. intros s Hs'. apply (Hfr (set_signed b)); [apply in_map; exact Hb|exact Hs'].
Qed.

(** *** The time of the next signing *)
Definition late (c : sctx) (e : Z) : Prop := time64 e /\ (e = 0 \/ c_now c + (c_refresh c + c_prerefresh c) < e).
Lemma late_min : forall c a b, late c a -> late c b -> late c (knot_time_min a b).
Proof. intros c a b Ha Hb. destruct Ha as (Ta & Ha), Hb as (Tb & Hb). split; [apply min_time64; assumption|]. unfold knot_time_min, w64, time64 in *.
  destruct (a =? 0) eqn:Ea; cbn [orb]; [assert (a = 0) as -> by lia; rewrite Z.add_0_l, Z.mod_small by exact Tb; exact Hb|].
  destruct (b =? 0) eqn:Eb; [assert (b = 0) as -> by lia; rewrite Z.add_0_r, Z.mod_small by exact Ta; exact Ha|]. destruct (a <? b); assumption. Qed.
Lemma late_zero : forall c, late c 0.
Proof. intros. split; [cbv; split; [discriminate|reflexivity]|left; reflexivity]. Qed.
Lemma missing_late : forall c skip r sigs keys x y, late c (ch_expire x) ->
  (forall k s n e, In k keys -> used k r -> claimed c skip r sigs k s n e -> late c e) -> missing_keys c skip r sigs keys x = Ok y -> late c (ch_expire y).
Proof.
  intros c skip r sigs. induction keys as [|k keys IH]; intros x y Hx Hc H; cbn [missing_keys] in H; [injection H as <-; exact Hx|].
  destruct (knot_zone_sign_use_key k r) as [u|?| |] eqn:Eu; cbn [rbind] in H; try discriminate.
  assert (Hc' : forall k' s n e, In k' keys -> used k' r -> claimed c skip r sigs k' s n e -> late c e) by (intros; eapply Hc; eauto; right; assumption).
  destruct u; cbn [negb] in H; [|eapply IH; eauto].
  destruct (valid_signature c k (w32 (c_refresh c + c_prerefresh c)) skip r sigs) as [s|] eqn:Ev.
  - eapply IH; [|exact Hc'|exact H]. cbn [ch_expire]. apply late_min; [|exact Hx].
    eapply (Hc k s false); [left; reflexivity|exact Eu|]. cbn [claimed]. split; [exact Ev|reflexivity].
  - destruct (knot_sign_rrset c k r) as [(s, e)|?| |] eqn:Es; cbn [rbind] in H; try discriminate.
    eapply IH; [|exact Hc'|exact H]. cbn [ch_expire]. apply late_min; [exact Hx|]. eapply (Hc k s true); [left; reflexivity|exact Eu|]. cbn [claimed]. split; [exact Ev|exact Es].
Qed.
Lemma node_late : forall c keys nd x, settings_ok c -> crypto_ok (c_crypto c) -> flag_ok c keys nd -> times_ok c (margin c) nd ->
  sign_node_rrsets c keys nd = Ok x -> late c (ch_expire x).
Proof.
  intros c keys nd x Hs Hc Hf Ht H. unfold sign_node_rrsets in H.
  destruct (sign_rrsets c keys nd (n_rrs nd) ch_empty) as [y|?| |] eqn:Ey; cbn [rbind] in H; try discriminate. injection H as <-.
  cbn [ch_join ch_expire remove_rrset_rrsigs remove_standalone_rrsigs]. apply late_min; [apply late_min|]; try apply late_zero.
  enough (G : forall rs a b, incl rs (n_rrs nd) -> late c (ch_expire a) -> sign_rrsets c keys nd rs a = Ok b -> late c (ch_expire b)).
  { eapply G; [apply incl_refl| |exact Ey]. apply late_zero. }
  induction rs as [|r rs IH]; intros a b Hi Ha E; cbn [sign_rrsets] in E; [injection E as <-; exact Ha|].
  destruct (sign_rrset c keys nd r) as [z|?| |] eqn:Ez; cbn [rbind] in E; try discriminate.
  eapply IH; [intros q Hq; apply Hi; right; exact Hq| |exact E]. cbn [ch_join ch_expire]. apply late_min; [exact Ha|].
  assert (Hr : In r (n_rrs nd)) by (apply Hi; left; reflexivity).
  assert (CL : forall k s n e, In k keys -> used k r -> claimed c (eskip c nd) r (eff c nd) k s n e -> late c e).
  { intros k s n e Hk _ Hcl. destruct (claims_good c keys nd r k s n e Hs Hc Hf Ht Hr Hk Hcl) as (_ & R & L). split; [|right; exact L].
    unfold reads in R. unfold time64. destruct Hs as (S1 & S2 & S3 & _). unfold margin in L. lia. }
  unfold sign_rrset in Ez. destruct (should_be_signed nd r); cbn [negb] in Ez; [|injection Ez as <-; apply late_zero].
  unfold eskip, eff in CL. destruct (c_drop c).
  - unfold force_resign_rrset, add_missing_rrsigs in Ez.
    destruct (missing_keys c false r [] keys _) as [w|?| |] eqn:Ew; cbn [rbind] in Ez; try discriminate. injection Ez as <-.
    cbn [ch_join ch_expire remove_rrset_rrsigs]. apply late_min; [apply late_zero|]. eapply missing_late; [|exact CL|exact Ew]. apply late_zero.
  - unfold add_missing_rrsigs in Ez. eapply missing_late; [|exact CL|exact Ez]. apply late_zero.
Qed.
Lemma thread_late : forall c xs e, late c e -> (forall x, In (Some x) xs -> late c (ch_expire x)) -> late c (thread_expire xs e).
Proof.
  intros c. unfold thread_expire. induction xs as [|[x|] xs IH]; intros e He H; cbn [fold_left]; [exact He| |].
  - apply IH; [apply late_min; [exact He|apply H; left; reflexivity]|]. intros y Hy. apply H. right. exact Hy.
  - apply IH; [exact He|]. intros y Hy. apply H. right. exact Hy.
Qed.
Lemma thread_members : forall c keys nth threads nds index xs, tree_sign_thread c keys nth threads nds index = Ok xs ->
  forall x, In (Some x) xs -> exists nd, In nd nds /\ sign_node_rrsets c keys nd = Ok x.
Proof.
  intros c keys nth threads. induction nds as [|nd nds IH]; intros index xs H x Hin; cbn [tree_sign_thread] in H.
  - injection H as <-. destruct Hin.
  - destruct (node_empty nd).
    + destruct (tree_sign_thread c keys nth threads nds index) as [l|?| |] eqn:E; cbn [rbind] in H; try discriminate. injection H as <-.
      destruct Hin as [Hin|Hin]; [discriminate|]. destruct (IH _ _ E _ Hin) as (n & A & B). exists n. split; [right; exact A|exact B].
    + destruct (negb (index mod threads =? nth)).
      * destruct (tree_sign_thread c keys nth threads nds (index + 1)) as [l|?| |] eqn:E; cbn [rbind] in H; try discriminate. injection H as <-.
        destruct Hin as [Hin|Hin]; [discriminate|]. destruct (IH _ _ E _ Hin) as (n & A & B). exists n. split; [right; exact A|exact B].
      * destruct (sign_node_rrsets c keys nd) as [y|?| |] eqn:Ey; cbn [rbind] in H; try discriminate.
        destruct (tree_sign_thread c keys nth threads nds (index + 1)) as [l|?| |] eqn:E; cbn [rbind] in H; try discriminate. injection H as <-.
        destruct Hin as [Hin|Hin]; [injection Hin as <-; exists nd; split; [left; reflexivity|exact Ey]|].
        destruct (IH _ _ E _ Hin) as (n & A & B). exists n. split; [right; exact A|exact B].
Qed.
Lemma tree_late : forall c keys start threads nds nds' e, settings_ok c -> crypto_ok (c_crypto c) -> zone_ok c keys nds ->
  zone_tree_sign c keys start threads nds = Ok (nds', e) -> late c e.
Proof.
  intros c keys start threads nds nds' e Hs Hc Hz H. unfold zone_tree_sign in H.
  enough (G : forall l cur e0, late c e0 -> collect_threads c keys start threads nds l cur e0 = Ok (nds', e) -> late c e) by (eapply G; [apply late_zero|exact H]).
  clear H. induction l as [|i l IH]; intros cur e0 He H; cbn [collect_threads] in H; [injection H as <- <-; exact He|].
  destruct (negb (start i =? 0)); [discriminate|]. destruct (tree_sign_thread c keys i threads nds 0) as [xs|?| |] eqn:E; cbn [rbind] in H; try discriminate.
  eapply IH; [|exact H]. apply thread_late; [exact He|]. intros x Hx. destruct (thread_members _ _ _ _ _ _ _ E x Hx) as (nd & A & B).
  destruct (Hz nd A) as (_ & P2 & P3). eapply node_late; eauto.
Qed.
Lemma zone_late : forall c keys start threads z z1 z2 e, settings_ok c -> crypto_ok (c_crypto c) -> zone_ok c keys (fst z ++ snd z) ->
  knot_zone_sign c keys start threads z = Ok (z1, z2, e) -> late c e.
Proof.
  intros c keys start threads z z1 z2 e Hs Hc Hz H. unfold knot_zone_sign in H. destruct (threads <? 1); [discriminate|].
  destruct (zone_tree_sign c keys start threads (fst z)) as [(xa, ea)|?| |] eqn:Ea; cbn [rbind] in H; try discriminate.
  destruct (zone_tree_sign c keys start threads (snd z)) as [(xb, eb)|?| |] eqn:Eb; cbn [rbind] in H; try discriminate.
  injection H as <- <- <-. apply late_min.
  - eapply (tree_late c keys start threads (fst z)); [exact Hs|exact Hc| |exact Ea]. intros nd Hin. apply Hz. apply in_or_app. auto.
  - eapply (tree_late c keys start threads (snd z)); [exact Hs|exact Hc| |exact Eb]. intros nd Hin. apply Hz. apply in_or_app. auto.
Qed.

(** *** Signing succeeds *)
Lemma zone_total : forall c keys threads z, 0 < threads -> settings_ok c ->
  (forall k, In k keys -> (z_zsk (k_z k) || z_ksk (k_z k)) = true) ->
  (forall k h r, In k keys -> exists v, (if c_reproducible c then cr_repro (c_crypto c) else cr_sign (c_crypto c)) k h r = Ok v) ->
  exists z1 z2 e, knot_zone_sign c keys (fun _ => 0) threads z = Ok (z1, z2, e).
Proof.
  intros c keys threads z Ht Hs Hr Hk. unfold knot_zone_sign. assert (threads <? 1 = false) as -> by lia.
  assert (N : forall nd, exists x, sign_node_rrsets c keys nd = Ok x).
  { intros nd. apply sign_node_total.
    - intros r k _ Hin. specialize (Hr k Hin). unfold knot_zone_sign_use_key. rewrite Hr. cbn [negb].
      destruct (negb (name_eqb (r_owner r) (k_name k))); [eauto|]. destruct ((r_type r =? T_DNSKEY) || (r_type r =? T_CDS) || (r_type r =? T_CDNSKEY)); eauto.
    - intros r k _ _ Hin _ _. destruct Hs as (Hn & Hr1 & Hr2 & Hl & _). unfold knot_sign_rrset.
      assert (E : serial_compare (w32 (w64 (c_now c - RRSIG_INCEPT_IN_PAST))) (w32 (w64 (c_now c + c_lifetime c))) = SERIAL_LOWER).
      { assert (w64 (c_now c - RRSIG_INCEPT_IN_PAST) = c_now c - 5400) as -> by (unfold w64, RRSIG_INCEPT_IN_PAST; apply Z.mod_small; lia).
        assert (w64 (c_now c + c_lifetime c) = c_now c + c_lifetime c) as -> by (unfold w64; apply Z.mod_small; lia).
        apply serial_compare_spec_l; unfold serial32, rfc1982_lt, w32; lia. }
      rewrite E. destruct (Hk k (mkh (r_type r) (k_alg k) (owner_labels (r_owner r)) (r_ttl r) (w32 (w64 (c_now c + c_lifetime c))) (w32 (w64 (c_now c - RRSIG_INCEPT_IN_PAST))) (k_tag k) (k_name k)) r Hin) as (v & Ev).
      rewrite Ev. cbn [rbind]. eauto. }
  destruct (tree_total c keys threads (fst z)) as (x1 & e1 & ->); [auto|]. cbn [rbind].
  destruct (tree_total c keys threads (snd z)) as (x2 & e2 & ->); [auto|]. cbn [rbind]. eauto.
Qed.
