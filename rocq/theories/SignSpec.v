(** What a signed zone is: which RRsets are signed by which keys, and when a signature is good. *)
From Verif Require Import Base KeyModel SignModel.

(** RFC 4035, 2.2: authoritative RRsets are signed; at a delegation only DS and NSEC. *)
Definition must_sign (nd : node) (r : rrs) : Prop :=
  r_data r <> [] /\ r_type r <> 46 /\ n_nonauth nd = false /\ (n_deleg nd = true -> r_type r = 47 \/ r_type r = 43).
(** DNSKEY, CDS and CDNSKEY at the apex are signed by KSKs, everything else by ZSKs. *)
Definition key_set (apex : name) (r : rrs) : Prop := r_owner r = apex /\ (r_type r = 48 \/ r_type r = 59 \/ r_type r = 60).
Definition in_use (k : skey) (r : rrs) : Prop :=
  (key_set (k_name k) r /\ z_ksk (k_z k) = true /\ (z_active (k_z k) = true \/ z_kplus (k_z k) = true)) \/
  (~ key_set (k_name k) r /\ z_zsk (k_z k) = true /\ (z_active (k_z k) = true \/ z_zplus (k_z k) = true)).

(** RFC 4034, 3.1.5: a 32-bit time is the nearest time with these low bits. *)
Definition reads (now u t : Z) : Prop := t mod 2 ^ 32 = u /\ now - 2 ^ 31 <= t <= now + 2 ^ 31.
(** The signature is valid now and for more than [margin] seconds from now. *)
Definition fresh (now margin : Z) (h : hdr) : Prop :=
  exists te ti, reads now (h_exp h) te /\ reads now (h_inc h) ti /\ ti <= now /\ now + margin < te.
(** The same, clear of the wrap of 32-bit times. *)
Definition fresh_strict (now margin : Z) (h : hdr) : Prop :=
  exists te ti, te mod 2 ^ 32 = h_exp h /\ ti mod 2 ^ 32 = h_inc h /\ 0 <= ti /\ now - 2 ^ 31 < ti <= now /\ now + margin < te < now + 2 ^ 31.
(** The signature names the key and the type. *)
Definition names (k : skey) (r : rrs) (h : hdr) : Prop := h_tag h = k_tag k /\ h_alg h = z_alg (k_z k) /\ h_type h = r_type r.
Definition verifies (c : sctx) (k : skey) (r : rrs) (s : sig) : Prop := cr_verify (c_crypto c) k (s_hdr s) r (s_val s) = true.
Definition good (c : sctx) (k : skey) (r : rrs) (s : sig) : Prop :=
  names k r (s_hdr s) /\ verifies c k r s /\ fresh (c_now c) (c_refresh c + c_prerefresh c) (s_hdr s).

(** RFC 4034, 3.1: the fields of a new signature. A wildcard label is not counted. *)
Definition labels_of (o : name) : Z :=
  match o with
  | first :: rest => if list_eq_dec Z.eq_dec first [42] then Z.of_nat (length rest) else 1 + Z.of_nat (length rest)
  | [] => 0
  end.
Definition new_fields (c : sctx) (k : skey) (r : rrs) (h : hdr) : Prop :=
  names k r h /\ h_labels h = labels_of (r_owner r) /\ h_ttl h = r_ttl r /\ h_signer h = k_name k /\
  h_exp h = (c_now c + c_lifetime c) mod 2 ^ 32 /\ h_inc h = (c_now c - 5400) mod 2 ^ 32.

(** *** Conditions *)
(** What is produced by signing is verified. *)
Definition crypto_ok (cr : crypto) : Prop :=
  (forall k h r v, cr_sign cr k h r = Ok v -> cr_verify cr k h r v = true) /\
  (forall k h r v, cr_repro cr k h r = Ok v -> cr_verify cr k h r v = true).
(** The configured times: conf/tools.c check_policy, and a lifetime that 32-bit times can express. *)
Definition settings_ok (c : sctx) : Prop :=
  5400 <= c_now c < 2 ^ 63 /\ 0 <= c_refresh c /\ 0 <= c_prerefresh c /\
  c_refresh c + c_prerefresh c < c_lifetime c < 2 ^ 31 - 5400 /\ c_unsafe_expired c = false.
(** A node marked as verified has been verified. *)
Definition flag_ok (c : sctx) (keys : list skey) (nd : node) : Prop :=
  n_valid nd = true -> c_conflict c = false ->
  forall r s k, In r (n_rrs nd) -> In s (n_sigs nd) -> In k keys -> names k r (s_hdr s) -> verifies c k r s.
(** No expiration lies within [margin] of the epoch, or before it. *)
Definition times_ok (c : sctx) (margin : Z) (nd : node) : Prop :=
  forall s, In s (n_sigs nd) -> 0 <= h_exp (s_hdr s) < 2 ^ 32 /\ 0 <= h_inc (s_hdr s) < 2 ^ 32 /\
    forall t, reads (c_now c) (h_exp (s_hdr s)) t -> margin <= t.
(** An RRset type occurs once in a node. *)
Definition node_ok (nd : node) : Prop := NoDup (map r_type (n_rrs nd)) /\ NoDup (n_sigs nd) /\ forall r, In r (n_rrs nd) -> r_type r <> 46.
(** Where signatures are compared with a new one, the new one is the only one that verifies. *)
Definition compare_ok (c : sctx) (keys : list skey) : Prop :=
  dnssec_algorithm_reproducible (c_alg c) (c_reproducible c) = true ->
  forall k h r v, In k keys -> k_can_sign k = true -> cr_verify (c_crypto c) k h r v = true -> cr_repro (c_crypto c) k h r = Ok v.
(** Keys are told apart: by their tags, or else by verification. *)
Definition keys_apart (c : sctx) (keys : list skey) : Prop :=
  (c_conflict c = false -> forall k1 k2, In k1 keys -> In k2 keys -> k_tag k1 = k_tag k2 -> k1 = k2) /\
  (forall k1 k2 h r v, In k1 keys -> In k2 keys -> cr_verify (c_crypto c) k1 h r v = true -> cr_verify (c_crypto c) k2 h r v = true -> k1 = k2).

(** *** A signed node *)
Definition well_signed (c : sctx) (keys : list skey) (nd nd' : node) : Prop :=
  n_owner nd' = n_owner nd /\ n_nonauth nd' = n_nonauth nd /\ n_deleg nd' = n_deleg nd /\ n_rrs nd' = n_rrs nd /\
  (forall r k, In r (n_rrs nd) -> must_sign nd r -> In k keys -> in_use k r -> exists s, In s (n_sigs nd') /\ good c k r s) /\
  (forall s, In s (n_sigs nd') -> exists r k, In r (n_rrs nd) /\ must_sign nd r /\ In k keys /\ in_use k r /\ good c k r s) /\
  (forall r us, In r (n_rrs nd) -> (forall k, In k keys -> in_use k r -> In k us) ->
     (length (filter (fun s => Z.eqb (h_type (s_hdr s)) (r_type r)) (n_sigs nd')) <= length us)%nat).
(** A signature is replaced only where no good one was. *)
Definition no_churn (c : sctx) (keys : list skey) (nd nd' : node) : Prop :=
  forall s, In s (n_sigs nd') -> In s (n_sigs nd) \/
    exists r k, In r (n_rrs nd) /\ must_sign nd r /\ In k keys /\ in_use k r /\ new_fields c k r (s_hdr s) /\
      (c_drop c = false -> forall s0, In s0 (n_sigs nd) -> names k r (s_hdr s0) -> verifies c k r s0 ->
         ~ fresh_strict (c_now c) (c_refresh c + c_prerefresh c) (s_hdr s0)).
(** [e] is a time when every signature of the node is still valid. *)
Definition until (c : sctx) (e : Z) (nd' : node) : Prop :=
  forall s, In s (n_sigs nd') -> exists te, reads (c_now c) (h_exp (s_hdr s)) te /\ 0 < e <= te.
(** Every node of the zone meets the conditions. *)
Definition zone_ok (c : sctx) (keys : list skey) (nds : list node) : Prop :=
  forall nd, In nd nds -> node_ok nd /\ flag_ok c keys nd /\ times_ok c (c_refresh c + c_prerefresh c) nd.

(** *** Validation *)
(** The keys that may sign an RRset: by their roles only. *)
Definition may_sign (c : sctx) (k : skey) (r : rrs) : Prop :=
  (key_set (c_apex c) r /\ z_ksk (k_z k) = true) \/ (~ key_set (c_apex c) r /\ z_zsk (k_z k) = true).
(** A signature that verifies with the key and is valid now *)
Definition valid_now (c : sctx) (k : skey) (r : rrs) (s : sig) : Prop :=
  names k r (s_hdr s) /\ verifies c k r s /\ fresh (c_now c) 0 (s_hdr s).
(** A node with valid signatures: every RRset that must be signed has one, every signature covers such an RRset,
    and a signature that names a key of the zone is a valid one. *)
Definition node_valid (c : sctx) (keys : list skey) (nd : node) : Prop :=
  (forall r, In r (n_rrs nd) -> must_sign nd r -> exists k s, In k keys /\ may_sign c k r /\ In s (n_sigs nd) /\ valid_now c k r s) /\
  (forall s, In s (n_sigs nd) -> exists r, In r (n_rrs nd) /\ must_sign nd r /\ h_type (s_hdr s) = r_type r) /\
  (forall r k s, In r (n_rrs nd) -> must_sign nd r -> In k keys -> may_sign c k r -> In s (n_sigs nd) -> names k r (s_hdr s) ->
     exists k', In k' keys /\ may_sign c k' r /\ valid_now c k' r s).
(** The same, clear of the wrap of times, and with signatures that name one key each. *)
Definition node_valid_strict (c : sctx) (keys : list skey) (nd : node) : Prop :=
  (forall r, In r (n_rrs nd) -> must_sign nd r -> exists k s, In k keys /\ may_sign c k r /\ In s (n_sigs nd) /\ names k r (s_hdr s)) /\
  (forall s, In s (n_sigs nd) -> exists r, In r (n_rrs nd) /\ must_sign nd r /\ h_type (s_hdr s) = r_type r) /\
  (forall r k s, In r (n_rrs nd) -> must_sign nd r -> In k keys -> may_sign c k r -> In s (n_sigs nd) -> names k r (s_hdr s) ->
     verifies c k r s /\ fresh_strict (c_now c) 0 (s_hdr s)).
(** A validated node stays valid until [e]: for each RRset one of its signatures lasts that long. *)
Definition valid_until (c : sctx) (keys : list skey) (e : Z) (nd : node) : Prop :=
  forall r, In r (n_rrs nd) -> must_sign nd r -> exists k s te,
    In k keys /\ may_sign c k r /\ In s (n_sigs nd) /\ valid_now c k r s /\ reads (c_now c) (h_exp (s_hdr s)) te /\ 0 < e <= te.
