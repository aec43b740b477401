(** C60: signing of a zone. C61: validation of the signatures of a zone. *)
From Coq Require Import Permutation.
From Verif Require Import Base SerialModel KeyModel SignModel SignSpec SignProofs SignProofs2 SignProofs3 SignProofs4 SignProofs5 SignProofs6.

(** *** C60 *)
(** After signing, every RRset that must be signed has a good signature by every key in use for it, at most one for
    each of them, there are no other signatures, and no other record has changed. All signatures last until the time
    that is reported. *)
Theorem c60_signed_partial : forall c keys start threads z z1 z2 e,
  settings_ok c -> crypto_ok (c_crypto c) -> zone_ok c keys (fst z ++ snd z) ->
  knot_zone_sign c keys start threads z = Ok (z1, z2, e) ->
  Forall2 (well_signed c keys) (fst z ++ snd z) (z1 ++ z2) /\ forall nd', In nd' (z1 ++ z2) -> until c e nd'.
Proof. intros c keys start threads z z1 z2 e Hs Hc Hz H. destruct (zone_signed c keys start threads z z1 z2 e Hs Hc Hz H) as (A & B & _). split; assumption. Qed.
(** A good signature is not replaced, and a new one has the fields that RFC 4034 requires. *)
Theorem c60_no_churn_partial : forall c keys start threads z z1 z2 e,
  settings_ok c -> crypto_ok (c_crypto c) -> compare_ok c keys -> (forall nd, In nd (fst z ++ snd z) -> node_ok nd) ->
  knot_zone_sign c keys start threads z = Ok (z1, z2, e) -> Forall2 (no_churn c keys) (fst z ++ snd z) (z1 ++ z2).
Proof. exact zone_no_churn. Qed.
(** Signing a signed zone again, at any later time, with other settings and any number of threads, changes nothing
    as long as no signature is due for renewal. *)
Theorem c60_stable_partial : forall c keys start t1 z z1 z2 e c2 t2,
  settings_ok c -> crypto_ok (c_crypto c) -> zone_ok c keys (fst z ++ snd z) ->
  knot_zone_sign c keys start t1 z = Ok (z1, z2, e) ->
  0 < t2 -> settings_ok c2 -> compare_ok c2 keys -> keys_apart c2 keys -> c_crypto c2 = c_crypto c -> c_drop c2 = false ->
  (forall k, In k keys -> (z_zsk (k_z k) || z_ksk (k_z k)) = true) ->
  (forall nd' s, In nd' (z1 ++ z2) -> In s (n_sigs nd') -> fresh_strict (c_now c2) (c_refresh c2 + c_prerefresh c2) (s_hdr s)) ->
  exists e2, knot_zone_sign c2 keys (fun _ => 0) t2 (z1, z2) = Ok (z1, z2, e2).
Proof. exact zone_again. Qed.
(** The same for one node, in any order of its signatures and whatever is remembered about them. *)
Theorem c60_stable_node_partial : forall c keys nd x c2 nd2,
  node_ok nd -> settings_ok c -> crypto_ok (c_crypto c) -> flag_ok c keys nd -> times_ok c (c_refresh c + c_prerefresh c) nd ->
  sign_node_rrsets c keys nd = Ok x ->
  settings_ok c2 -> compare_ok c2 keys -> keys_apart c2 keys -> c_crypto c2 = c_crypto c -> c_drop c2 = false ->
  n_rrs nd2 = n_rrs nd -> n_nonauth nd2 = n_nonauth nd -> n_deleg nd2 = n_deleg nd -> Permutation (n_sigs (apply_node nd x)) (n_sigs nd2) ->
  (forall k, In k keys -> (z_zsk (k_z k) || z_ksk (k_z k)) = true) ->
  (forall s, In s (n_sigs nd2) -> fresh_strict (c_now c2) (c_refresh c2 + c_prerefresh c2) (s_hdr s)) ->
  exists x2, sign_node_rrsets c2 keys nd2 = Ok x2 /\ ch_rem x2 = [] /\ ch_add x2 = [].
Proof. exact sign_again. Qed.
(** The result does not depend on the number of threads. *)
Theorem c60_threads : forall c keys start t1 t2 z z1 z2 e, 0 < t2 -> knot_zone_sign c keys start t1 z = Ok (z1, z2, e) ->
  exists e2, knot_zone_sign c keys (fun _ => 0) t2 z = Ok (z1, z2, e2).
Proof. exact zone_threads. Qed.
(** The next signing is due before any signature is due for renewal, and never at once. *)
Theorem c60_next_partial : forall c keys start threads z z1 z2 e,
  settings_ok c -> crypto_ok (c_crypto c) -> zone_ok c keys (fst z ++ snd z) ->
  knot_zone_sign c keys start threads z = Ok (z1, z2, e) ->
  forall nd' s, In nd' (z1 ++ z2) -> In s (n_sigs nd') ->
  c_now c + c_prerefresh c < next_refresh c e /\ exists te, reads (c_now c) (h_exp (s_hdr s)) te /\ next_refresh c e + c_refresh c <= te.
Proof.
  intros c keys start threads z z1 z2 e Hs Hc Hz H nd' s Hn Hin.
  destruct (zone_signed c keys start threads z z1 z2 e Hs Hc Hz H) as (_ & U & _). destruct (U nd' Hn s Hin) as (te & R & L1 & L2).
  destruct (zone_late c keys start threads z z1 z2 e Hs Hc Hz H) as (T & [L|L]); [lia|]. destruct Hs as (S1 & S2 & S3 & S4 & _).
  assert (E : next_refresh c e = e - c_refresh c).
  { unfold next_refresh, knot_time_add. assert (e =? 0 = false) as -> by lia. cbn [negb]. unfold w64. unfold time64 in T. rewrite Z.mod_small by lia. lia. }
  rewrite E. split; [lia|]. exists te. split; [exact R|lia].
Qed.
(** Signing succeeds if the keys can sign. *)
Theorem c60_succeeds_partial : forall c keys threads z, 0 < threads -> settings_ok c ->
  (forall k, In k keys -> (z_zsk (k_z k) || z_ksk (k_z k)) = true) ->
  (forall k h r, In k keys -> exists v, (if c_reproducible c then cr_repro (c_crypto c) else cr_sign (c_crypto c)) k h r = Ok v) ->
  exists z1 z2 e, knot_zone_sign c keys (fun _ => 0) threads z = Ok (z1, z2, e).
Proof. exact zone_total. Qed.

(** *** C61 *)
(** A zone that is accepted: every RRset that must be signed has a valid signature by a key of the zone with the right
    role that lasts until the time that is reported, every signature covers such an RRset, and a signature that
    names a key is a valid one. *)
Theorem c61_accepted_partial : forall c keys nds e,
  Z.of_nat (length keys) <= 127 -> 0 < c_now c < 2 ^ 63 -> c_unsafe_expired c = false -> crypto_ok (c_crypto c) ->
  (forall nd, In nd nds -> node_ok nd /\ flag_ok c keys nd /\ times_ok c 0 nd) ->
  validate_nodes c keys nds 0 = Ok e -> forall nd, In nd nds -> node_valid c keys nd /\ valid_until c keys e nd.
Proof. exact zone_validated. Qed.
(** A zone with valid signatures is accepted. *)
Theorem c61_complete_partial : forall c keys nds,
  Z.of_nat (length keys) <= 127 -> 0 < c_now c < 2 ^ 63 -> crypto_ok (c_crypto c) -> compare_ok c keys ->
  (forall nd, In nd nds -> node_ok nd /\ node_valid_strict c keys nd) -> exists e, validate_nodes c keys nds 0 = Ok e.
Proof. intros c keys nds Hn Hnow Hc Hcmp Hz. exact (zone_validates c keys nds 0 Hn Hnow Hc Hcmp Hz). Qed.
(** A zone that was signed is accepted while its signatures are fresh. *)
Theorem c61_signed_accepted_partial : forall c keys start threads z z1 z2 e c2,
  settings_ok c -> crypto_ok (c_crypto c) -> zone_ok c keys (fst z ++ snd z) ->
  knot_zone_sign c keys start threads z = Ok (z1, z2, e) ->
  Z.of_nat (length keys) <= 127 -> 0 < c_now c2 < 2 ^ 63 -> c_crypto c2 = c_crypto c -> compare_ok c2 keys ->
  (forall k, In k keys -> k_name k = c_apex c2) ->
  (forall k1 k2, In k1 keys -> In k2 keys -> k_tag k1 = k_tag k2 -> z_alg (k_z k1) = z_alg (k_z k2) -> k1 = k2) ->
  (exists k, In k keys /\ z_ksk (k_z k) = true /\ z_active (k_z k) = true) ->
  (exists k, In k keys /\ z_zsk (k_z k) = true /\ z_active (k_z k) = true) ->
  (forall nd' s, In nd' (z1 ++ z2) -> In s (n_sigs nd') -> fresh_strict (c_now c2) 0 (s_hdr s)) ->
  exists e2, validate_nodes c2 keys (z1 ++ z2) 0 = Ok e2.
Proof. exact sign_validate. Qed.

(** *** A concrete zone *)
(** A cryptography that lists what is signed *)
Definition ex_val (k : skey) (h : hdr) (r : rrs) : list Z := [k_id k; h_type h; h_labels h; h_exp h; h_inc h; h_tag h; Z.of_nat (length (r_data r))].
Definition ex_crypto : crypto :=
  mkcr (fun k h r v => if list_eq_dec Z.eq_dec v (ex_val k h r) then true else false) (fun k h r => Ok (ex_val k h r)) (fun k h r => Ok (ex_val k h r)).
Definition ex_apex : name := [[101; 120]].
Definition ex_ksk : skey := mkk 1 1111 ex_apex true (mkz 15 true false true false true false false false).
Definition ex_zsk : skey := mkk 2 2222 ex_apex true (mkz 15 false true true false true false false false).
(** a ZSK published for a rollover *)
Definition ex_next : skey := mkk 3 3333 ex_apex true (mkz 15 false true true true false false false false).
Definition ex_keys : list skey := [ex_ksk; ex_zsk; ex_next].
Definition ex_ctx (now : Z) : sctx := mkc now 1209600 604800 3600 false 15 false false false ex_apex ex_crypto.
Definition ex_now : Z := 1700000000.
Definition ex_hdr (type : Z) (k : skey) (exp : Z) : hdr := mkh type 15 1 3600 exp (exp - 1300000) (k_tag k) ex_apex.
Definition ex_soa : rrs := mkr ex_apex 6 3600 [[1; 2; 3]].
Definition ex_sig (r : rrs) (k : skey) (exp : Z) : sig := mks (ex_hdr (r_type r) k exp) (ex_val k (ex_hdr (r_type r) k exp) r).
(** an apex with a good signature of the SOA, a signature of the SOA that is due, and a signature of a type that is gone; a delegation; glue *)
Definition ex_node : node := mkn ex_apex false false false
  [ex_soa; mkr ex_apex 2 3600 [[4]]; mkr ex_apex 48 3600 [[5]; [6]; [7]]]
  [ex_sig ex_soa ex_zsk (ex_now + 1000000); ex_sig (mkr ex_apex 2 3600 [[4]]) ex_zsk (ex_now + 500000); ex_sig (mkr ex_apex 1 3600 [[9]]) ex_zsk (ex_now + 1000000)].
Definition ex_sub : name := [115] :: ex_apex.
Definition ex_deleg : node := mkn ex_sub false true false [mkr ex_sub 2 3600 [[8]]; mkr ex_sub 43 3600 [[9]]] [].
Definition ex_glue : node := mkn ([110] :: ex_sub) true false false [mkr ([110] :: ex_sub) 1 3600 [[1; 2; 3; 4]]] [ex_sig (mkr ([110] :: ex_sub) 1 3600 [[1; 2; 3; 4]]) ex_zsk (ex_now + 1000000)].
Definition ex_nsec3 : node := mkn ([104] :: ex_apex) false false false [mkr ([104] :: ex_apex) 50 3600 [[1]]] [].
Definition ex_zone : list node * list node := ([ex_node; mkn ([101] :: ex_apex) false false false [] []; ex_deleg; ex_glue], [ex_nsec3]).

Lemma ex_settings : forall now, 5400 <= now < 2 ^ 62 -> settings_ok (ex_ctx now).
Proof. intros now H. unfold settings_ok, ex_ctx. cbn [c_now c_refresh c_prerefresh c_lifetime c_unsafe_expired]. repeat split; lia. Qed.
Lemma ex_crypto_ok : crypto_ok ex_crypto.
Proof. split; intros k h r v H; cbn [ex_crypto cr_sign cr_repro cr_verify] in *; injection H as <-; destruct (list_eq_dec Z.eq_dec (ex_val k h r) (ex_val k h r)); [reflexivity|contradiction|reflexivity|contradiction]. Qed.
Lemma ex_compare_ok : forall now, compare_ok (ex_ctx now) ex_keys.
Proof.
  intros now _ k h r v _ _ H. unfold ex_ctx in *. cbn [c_crypto ex_crypto cr_verify cr_repro] in *. destruct (list_eq_dec Z.eq_dec v (ex_val k h r)) as [->|]; [reflexivity|discriminate].
Qed.
Lemma ex_apart : forall now, keys_apart (ex_ctx now) ex_keys.
Proof.
  intros now. split.
  - intros _ k1 k2 H1 H2 E. cbn [ex_keys In] in *. destruct H1 as [<-|[<-|[<-|[]]]], H2 as [<-|[<-|[<-|[]]]]; auto; discriminate E.
  - intros k1 k2 h r v H1 H2 V1 V2. unfold ex_ctx in *. cbn [c_crypto ex_crypto cr_verify] in *.
    destruct (list_eq_dec Z.eq_dec v (ex_val k1 h r)) as [->|]; [|discriminate]. destruct (list_eq_dec Z.eq_dec (ex_val k1 h r) (ex_val k2 h r)) as [E|]; [|discriminate].
    assert (I : k_id k1 = k_id k2) by (injection E; auto). cbn [ex_keys In] in *. destruct H1 as [<-|[<-|[<-|[]]]], H2 as [<-|[<-|[<-|[]]]]; auto; discriminate I.
Qed.
Ltac in_cases H := cbn [In] in H; repeat (destruct H as [<-|H]); [.. |destruct H].
Lemma ex_zone_ok : zone_ok (ex_ctx ex_now) ex_keys (fst ex_zone ++ snd ex_zone).
Proof.
  intros nd Hin. split; [|split].
  - cbn [ex_zone fst snd app] in Hin. unfold node_ok.
    in_cases Hin; cbn; repeat match goal with |- _ /\ _ => split end; repeat constructor; cbn; try (intuition discriminate);
      try (intros r Hr; repeat (destruct Hr as [<-|Hr]; [discriminate|]); destruct Hr).
  - intros V. exfalso. cbn [ex_zone fst snd app] in Hin. in_cases Hin; discriminate V.
  - intros s Hs. cbn [ex_zone fst snd app] in Hin. in_cases Hin; cbn [n_sigs ex_node ex_deleg ex_glue ex_nsec3] in Hs; in_cases Hs;
      unfold ex_now; cbn [s_hdr h_exp h_inc ex_sig ex_hdr ex_ctx c_now]; (split; [lia|split; [lia|]]); intros t (R1 & R2); clear - R1 R2; cbn [ex_ctx c_refresh c_prerefresh]; lia.
Qed.
Definition ex_signed : list node * list node * Z := Eval vm_compute in
  match knot_zone_sign (ex_ctx ex_now) ex_keys (fun _ => 0) 2 ex_zone with Ok x => x | _ => ([], [], 0) end.
Definition ex_out : list node := fst (fst ex_signed) ++ snd (fst ex_signed).

Example c60_example :
  settings_ok (ex_ctx ex_now) /\ crypto_ok (c_crypto (ex_ctx ex_now)) /\ zone_ok (ex_ctx ex_now) ex_keys (fst ex_zone ++ snd ex_zone) /\
  knot_zone_sign (ex_ctx ex_now) ex_keys (fun _ => 0) 2 ex_zone = Ok ex_signed /\
  (** the SOA keeps its signature, NS and DNSKEY get new ones *)
  map (fun nd => map (fun s => (s_type s, h_tag (s_hdr s), h_exp (s_hdr s) - ex_now)) (n_sigs nd)) ex_out =
    [[(6, 2222, 1000000); (2, 2222, 1209600); (48, 1111, 1209600)]; []; [(43, 2222, 1209600)]; []; [(50, 2222, 1209600)]] /\
  snd ex_signed = ex_now + 1000000 /\ next_refresh (ex_ctx ex_now) (snd ex_signed) = ex_now + 395200.
Proof.
  split; [apply ex_settings; unfold ex_now; lia|]. split; [exact ex_crypto_ok|]. split; [exact ex_zone_ok|].
  split; [vm_compute; reflexivity|]. split; [vm_compute; reflexivity|]. split; [vm_compute; reflexivity|vm_compute; reflexivity].
Qed.
(** A day later nothing is signed *)
Lemma ex_fresh : forall now m, ex_now <= now <= ex_now + 86400 -> 0 <= m <= 608400 -> forall nd' s, In nd' ex_out -> In s (n_sigs nd') -> fresh_strict now m (s_hdr s).
Proof.
  intros now m Hn Hm nd' s Hin Hs. unfold ex_now in *. unfold ex_out, ex_signed in Hin. cbn [fst snd app] in Hin.
  in_cases Hin; cbn [n_sigs] in Hs; in_cases Hs; cbn [s_hdr];
    (eexists; eexists; cbn [h_exp h_inc]; split; [apply Z.mod_small; shelve|split; [apply Z.mod_small; shelve|]]; shelve).
  Unshelve. all: try lia.
Qed.
Example c60_stable_example : exists e2,
  knot_zone_sign (ex_ctx (ex_now + 86400)) ex_keys (fun _ => 0) 3 (fst ex_signed) = Ok (fst (fst ex_signed), snd (fst ex_signed), e2).
Proof.
  destruct ex_signed as ((z1, z2), e) eqn:E. cbn [fst snd].
  apply (c60_stable_partial (ex_ctx ex_now) ex_keys (fun _ => 0) 2 ex_zone z1 z2 e (ex_ctx (ex_now + 86400)) 3).
  - apply ex_settings; unfold ex_now; lia.
  - exact ex_crypto_ok.
  - exact ex_zone_ok.
  - rewrite <- E. vm_compute. reflexivity.
  - lia.
  - apply ex_settings; unfold ex_now; lia.
  - apply ex_compare_ok.
  - apply ex_apart.
  - reflexivity.
  - reflexivity.
  - intros k Hk. cbn [ex_keys In] in Hk. destruct Hk as [<-|[<-|[<-|[]]]]; reflexivity.
  - assert (O : ex_out = z1 ++ z2) by (unfold ex_out; rewrite E; reflexivity). rewrite <- O. apply ex_fresh; cbn [ex_ctx c_now c_refresh c_prerefresh]; lia.
Qed.
(** and the zone is accepted *)
Lemma ex_out_ok : forall nd, In nd ex_out -> node_ok nd.
Proof.
  intros nd Hin. unfold ex_out, ex_signed in Hin. cbn [fst snd app] in Hin. unfold node_ok.
  in_cases Hin; cbn [n_rrs n_sigs map r_type]; repeat match goal with |- _ /\ _ => split end; repeat constructor; cbn [In]; try (intuition discriminate);
    try (intros r Hr; repeat (destruct Hr as [<-|Hr]; [discriminate|]); destruct Hr).
Qed.
Lemma ex_out_flag : forall now, flag_ok (ex_ctx now) ex_keys ex_node /\ forall nd, In nd ex_out -> flag_ok (ex_ctx now) ex_keys nd.
Proof.
  intros now. split; [intros V; discriminate V|]. intros nd Hin _ _ r s k Hr Hs Hk (N1 & N2 & N3). unfold ex_out, ex_signed in Hin. cbn [fst snd app] in Hin.
  cbn [ex_keys In] in Hk. in_cases Hin; cbn [n_rrs n_sigs] in Hr, Hs; in_cases Hr; in_cases Hs; try discriminate N3; destruct Hk as [<-|[<-|[<-|[]]]]; try discriminate N1; reflexivity.
Qed.
Lemma ex_out_times : forall nd, In nd ex_out -> times_ok (ex_ctx (ex_now + 86400)) 0 nd.
Proof.
  intros nd Hin s Hs. unfold ex_out, ex_signed in Hin. cbn [fst snd app] in Hin. unfold ex_now.
  in_cases Hin; cbn [n_sigs] in Hs; in_cases Hs; cbn [s_hdr h_exp h_inc ex_ctx c_now]; (split; [lia|split; [lia|]]); intros t (R1 & R2); clear - R1 R2; lia.
Qed.
Lemma ex_out_strict : forall nd, In nd ex_out -> node_valid_strict (ex_ctx (ex_now + 86400)) ex_keys nd.
Proof.
  intros nd Hin.
  assert (F : Forall2 (well_signed (ex_ctx ex_now) ex_keys) (fst ex_zone ++ snd ex_zone) ex_out).
  { destruct (c60_signed_partial (ex_ctx ex_now) ex_keys (fun _ => 0) 2 ex_zone (fst (fst ex_signed)) (snd (fst ex_signed)) (snd ex_signed)) as (A & _).
    - apply ex_settings; unfold ex_now; lia.
    - exact ex_crypto_ok.
    - exact ex_zone_ok.
    - vm_compute. reflexivity.
    - exact A. }
  assert (exists a, In a (fst ex_zone ++ snd ex_zone) /\ well_signed (ex_ctx ex_now) ex_keys a nd) as (a & Ha & W).
  { clear - F Hin. induction F as [|a b l m X F IH]; [destruct Hin|]. destruct Hin as [->|Hin]; [exists a; split; [left; reflexivity|exact X]|].
    destruct (IH Hin) as (a' & A & B). exists a'. split; [right; exact A|exact B]. }
  apply (signed_valid (ex_ctx ex_now) ex_keys (ex_ctx (ex_now + 86400)) a nd).
  - apply ex_zone_ok. exact Ha.
  - exact W.
  - reflexivity.
  - intros k Hk. cbn [ex_keys In] in Hk. destruct Hk as [<-|[<-|[<-|[]]]]; reflexivity.
  - intros k1 k2 H1 H2 E _. cbn [ex_keys In] in *. destruct H1 as [<-|[<-|[<-|[]]]], H2 as [<-|[<-|[<-|[]]]]; auto; discriminate E.
  - exists ex_ksk. split; [left; reflexivity|split; reflexivity].
  - exists ex_zsk. split; [right; left; reflexivity|split; reflexivity].
  - intros s Hs. apply (ex_fresh _ _) with (nd' := nd); [cbn [ex_ctx c_now]; lia|lia|exact Hin|exact Hs].
Qed.
Example c61_example : validate_nodes (ex_ctx (ex_now + 86400)) ex_keys ex_out 0 = Ok (ex_now + 1000000) /\
  forall nd, In nd ex_out -> node_ok nd /\ flag_ok (ex_ctx (ex_now + 86400)) ex_keys nd /\ times_ok (ex_ctx (ex_now + 86400)) 0 nd /\ node_valid_strict (ex_ctx (ex_now + 86400)) ex_keys nd.
Proof.
  split; [vm_compute; reflexivity|]. intros nd Hin. split; [apply ex_out_ok; exact Hin|]. split; [apply ex_out_flag; exact Hin|]. split; [apply ex_out_times; exact Hin|apply ex_out_strict; exact Hin].
Qed.
(** A zone is refused when a signature is missing, expired, not yet valid, false, or covers what must not be signed. *)
Definition ex_one (s : list sig) : node := mkn ex_apex false false false [ex_soa] s.
Example c61_refused :
  validate_node (ex_ctx ex_now) ex_keys (ex_one []) = Err KNOT_DNSSEC_ENOSIG /\
  validate_node (ex_ctx ex_now) ex_keys (ex_one [ex_sig ex_soa ex_zsk ex_now]) = Err KNOT_DNSSEC_ENOSIG /\
  validate_node (ex_ctx ex_now) ex_keys (ex_one [ex_sig ex_soa ex_zsk (ex_now + 1)]) = Ok (ex_now + 1) /\
  validate_node (ex_ctx ex_now) ex_keys (ex_one [ex_sig ex_soa ex_zsk (ex_now + 1300001)]) = Err KNOT_DNSSEC_ENOSIG /\
  validate_node (ex_ctx ex_now) ex_keys (ex_one [ex_sig ex_soa ex_ksk (ex_now + 1)]) = Err KNOT_DNSSEC_ENOSIG /\
  validate_node (ex_ctx ex_now) ex_keys (ex_one [ex_sig ex_soa ex_zsk (ex_now + 1); mks (ex_hdr 6 ex_next (ex_now + 1)) [0]]) = Err KNOT_DNSSEC_ENOSIG /\
  validate_node (ex_ctx ex_now) ex_keys ex_glue = Err KNOT_DNSSEC_ENOSIG.
Proof. repeat match goal with |- _ /\ _ => split end; vm_compute; reflexivity. Qed.

(** *** What does not hold *)
(** A lifetime that the configuration accepts (1 to 2^31 - 1 seconds) makes an assertion fail. *)
Theorem c60_lifetime_refuted : exists c keys z, c_refresh c + c_prerefresh c < c_lifetime c <= 2 ^ 31 - 1 /\ zone_ok c keys (fst z ++ snd z) /\
  knot_zone_sign c keys (fun _ => 0) 1 z = UB.
Proof.
  exists (mkc ex_now (2 ^ 31 - 5400) 604800 3600 false 15 false false false ex_apex ex_crypto), ex_keys, ex_zone.
  split; [cbn; lia|]. split; [exact ex_zone_ok|vm_compute; reflexivity].
Qed.
(** An expiration close to the epoch, more than fifty years ago, is not seen: the signature is kept. *)
Theorem c60_old_expiration_refuted : exists c keys nd s, settings_ok c /\ crypto_ok (c_crypto c) /\ node_ok nd /\ flag_ok c keys nd /\
  In s (n_sigs nd) /\ reads (c_now c) (h_exp (s_hdr s)) 1000 /\ 1000 < c_now c /\
  sign_node_rrsets c keys nd = Ok (mkch [] [] 1000 0).
Proof.
  exists (ex_ctx ex_now), ex_keys, (ex_one [mks (mkh 6 15 1 3600 1000 0 2222 ex_apex) (ex_val ex_zsk (mkh 6 15 1 3600 1000 0 2222 ex_apex) ex_soa)]),
    (mks (mkh 6 15 1 3600 1000 0 2222 ex_apex) (ex_val ex_zsk (mkh 6 15 1 3600 1000 0 2222 ex_apex) ex_soa)).
  split; [apply ex_settings; unfold ex_now; lia|]. split; [exact ex_crypto_ok|]. split; [|split; [intros V; discriminate V|split; [left; reflexivity|split; [split; [reflexivity|cbn [ex_ctx c_now]; unfold ex_now; lia]|split; [reflexivity|vm_compute; reflexivity]]]]].
  unfold node_ok. cbn. repeat match goal with |- _ /\ _ => split end; repeat constructor; cbn; try (intuition discriminate). intros r [<-|[]]; discriminate.
Qed.
(** Before 2038, an expiration that serial number arithmetic places before the epoch is taken for one in the far future. *)
Theorem c61_far_expiration_refuted : exists c keys nd s e, settings_ok c /\ crypto_ok (c_crypto c) /\ node_ok nd /\ flag_ok c keys nd /\
  n_sigs nd = [s] /\ (forall t, reads (c_now c) (h_exp (s_hdr s)) t -> t < 0) /\ validate_node c keys nd = Ok e.
Proof.
  exists (ex_ctx ex_now), ex_keys, (ex_one [mks (mkh 6 15 1 3600 4000000000 0 2222 ex_apex) (ex_val ex_zsk (mkh 6 15 1 3600 4000000000 0 2222 ex_apex) ex_soa)]),
    (mks (mkh 6 15 1 3600 4000000000 0 2222 ex_apex) (ex_val ex_zsk (mkh 6 15 1 3600 4000000000 0 2222 ex_apex) ex_soa)), 18446744073414584320.
  split; [apply ex_settings; unfold ex_now; lia|]. split; [exact ex_crypto_ok|]. split; [|split; [intros V; discriminate V|split; [reflexivity|split; [|vm_compute; reflexivity]]]].
  - unfold node_ok. cbn. repeat match goal with |- _ /\ _ => split end; repeat constructor; cbn; try (intuition discriminate). intros r [<-|[]]; discriminate.
  - intros t (R1 & R2). cbn [ex_ctx c_now s_hdr h_exp] in *. unfold ex_now in *. lia.
Qed.
(** A signature that covers no RRset of its node makes an assertion fail in validation. *)
Theorem c61_dangling_refuted : exists c keys nd, settings_ok c /\ crypto_ok (c_crypto c) /\ node_ok nd /\ validate_node c keys nd = UB.
Proof.
  exists (ex_ctx ex_now), ex_keys, (ex_one [ex_sig ex_soa ex_zsk (ex_now + 1); ex_sig (mkr ex_apex 1 3600 [[9]]) ex_zsk (ex_now + 1)]).
  split; [apply ex_settings; unfold ex_now; lia|]. split; [exact ex_crypto_ok|]. split; [|vm_compute; reflexivity].
  unfold node_ok. cbn. repeat match goal with |- _ /\ _ => split end; repeat constructor; cbn; try (intuition discriminate). intros r [<-|[]]; discriminate.
Qed.
(** With 128 keys of one tag a false signature passes beside a valid one. *)
Definition ex_many : list skey := ex_zsk :: map (fun i => mkk (Z.of_nat i + 100) 4444 ex_apex false (mkz 15 false true true false false false false false)) (seq 0 128).
Definition ex_false : sig := mks (mkh 6 15 1 3600 (ex_now + 1) (ex_now - 1) 4444 ex_apex) [0].
Theorem c61_many_keys_refuted : exists c keys nd r s, settings_ok c /\ crypto_ok (c_crypto c) /\ node_ok nd /\ In r (n_rrs nd) /\ must_sign nd r /\
  In s (n_sigs nd) /\ (exists k, In k keys /\ may_sign c k r /\ names k r (s_hdr s)) /\ (forall k, In k keys -> ~ (names k r (s_hdr s) /\ verifies c k r s)) /\
  validate_node c keys nd = Ok (ex_now + 1).
Proof.
  exists (ex_ctx ex_now), ex_many, (ex_one [ex_sig ex_soa ex_zsk (ex_now + 1); ex_false]), ex_soa, ex_false.
  split; [apply ex_settings; unfold ex_now; lia|]. split; [exact ex_crypto_ok|].
  split. { unfold node_ok. cbn. repeat match goal with |- _ /\ _ => split end; repeat constructor; cbn; try (intuition discriminate). intros r [<-|[]]; discriminate. }
  split; [left; reflexivity|]. split. { unfold must_sign, ex_soa, ex_one. cbn. repeat split; discriminate. }
  split; [right; left; reflexivity|]. split.
  { exists (mkk 100 4444 ex_apex false (mkz 15 false true true false false false false false)). split; [right; left; reflexivity|]. split; [|repeat split].
    right. split; [|reflexivity]. intros (_ & X). cbn in X. lia. }
  split; [|vm_compute; reflexivity]. intros k Hk (_ & V). unfold verifies, ex_ctx, ex_false in V. cbn [c_crypto ex_crypto cr_verify s_val s_hdr] in V.
  destruct (list_eq_dec Z.eq_dec [0] (ex_val k _ ex_soa)) as [E|]; [|discriminate]. discriminate E.
Qed.
(** A key of another algorithm than the policy's: its signatures are judged by the policy's algorithm, so good ones
    are replaced each time the zone is loaded. *)
Definition ex_crypto2 : crypto :=
  mkcr (fun k h r v => if list_eq_dec Z.eq_dec (tl v) (ex_val k h r) then true else false) (fun k h r => Ok (0 :: ex_val k h r)) (fun k h r => Ok (1 :: ex_val k h r)).
Definition ex_ctx2 (now : Z) : sctx := mkc now 1209600 604800 3600 false 15 false false false ex_apex ex_crypto2.
Definition ex_ecdsa : skey := mkk 2 2222 ex_apex true (mkz 13 false true true false true false false false).
Definition ex_esig (now : Z) : sig := let h := mkh 6 13 1 3600 (now + 1209600) (now - 5400) 2222 ex_apex in mks h (1 :: ex_val ex_ecdsa h ex_soa).
Theorem c60_other_algorithm_refuted : exists c c2 k nd s,
  settings_ok c /\ settings_ok c2 /\ crypto_ok (c_crypto c) /\ c_crypto c2 = c_crypto c /\ keys_apart c2 [k] /\ node_ok nd /\
  sign_node_rrsets c [k] nd = Ok (mkch [] [s] (c_now c + c_lifetime c) 1) /\
  In ex_soa (n_rrs nd) /\ good c2 k ex_soa s /\
  exists s2, s2 <> s /\ sign_node_rrsets c2 [k] (ex_one [s]) = Ok (mkch [s] [s2] (c_now c2 + c_lifetime c2) 1).
Proof.
  exists (ex_ctx2 ex_now), (ex_ctx2 (ex_now + 1)), ex_ecdsa, (ex_one []), (ex_esig ex_now).
  assert (S : forall now, 5400 <= now < 2 ^ 62 -> settings_ok (ex_ctx2 now)).
  { intros now H. unfold settings_ok, ex_ctx2. cbn [c_now c_refresh c_prerefresh c_lifetime c_unsafe_expired]. repeat split; lia. }
  split; [apply S; unfold ex_now; lia|]. split; [apply S; unfold ex_now; lia|]. split.
  { split; intros k h r v H; cbn [ex_ctx2 c_crypto ex_crypto2 cr_sign cr_repro cr_verify] in *; injection H as <-; cbn [tl];
      destruct (list_eq_dec Z.eq_dec (ex_val k h r) (ex_val k h r)); [reflexivity|contradiction|reflexivity|contradiction]. }
  split; [reflexivity|]. split. { split; [intros _ k1 k2 [<-|[]] [<-|[]]; auto|intros k1 k2 h r v [<-|[]] [<-|[]]; auto]. }
  split. { unfold node_ok. cbn. repeat match goal with |- _ /\ _ => split end; repeat constructor; cbn; try (intuition discriminate). intros r [<-|[]]; discriminate. }
  split; [vm_compute; reflexivity|]. split; [left; reflexivity|]. split.
  { split; [repeat split|]. split; [vm_compute; reflexivity|]. exists (ex_now + 1209600), (ex_now - 5400). unfold reads, ex_now. cbn [ex_esig s_hdr h_exp h_inc ex_ctx2 c_now c_refresh c_prerefresh]. 
    repeat match goal with |- _ /\ _ => split end; try reflexivity; lia. }
  exists (ex_esig (ex_now + 1)). split; [intros E; discriminate E|vm_compute; reflexivity].
Qed.

Print Assumptions c60_signed_partial.
Print Assumptions c60_no_churn_partial.
Print Assumptions c60_stable_partial.
Print Assumptions c60_stable_node_partial.
Print Assumptions c60_threads.
Print Assumptions c60_next_partial.
Print Assumptions c60_succeeds_partial.
Print Assumptions c61_accepted_partial.
Print Assumptions c61_complete_partial.
Print Assumptions c61_signed_accepted_partial.
Print Assumptions c60_lifetime_refuted.
Print Assumptions c60_old_expiration_refuted.
Print Assumptions c60_other_algorithm_refuted.
Print Assumptions c61_far_expiration_refuted.
Print Assumptions c61_dangling_refuted.
Print Assumptions c61_many_keys_refuted.
