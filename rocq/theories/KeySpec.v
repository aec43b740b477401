(** What automatic key management promises: the histories of a zone's keys, the order of the times of a
    key, and which keys sign. *)
From Verif Require Import Base KeyModel.

(** The times of a key in the order of its life; 0 is a time not set *)
Definition life (k : key) : list Z :=
  let t := k_t k in
  [t_created t; t_pre_active t; t_publish t; t_ready t; t_active t; t_retire_active t; t_retire t; t_post_active t; t_remove t].
(** The times set are in this order *)
Fixpoint ascending (l : list Z) : Prop :=
  match l with [] => True | x :: l => Forall (fun y => x <= y) l /\ ascending l end.
Definition ordered (k : key) : Prop := ascending (filter (fun x => negb (x =? 0)) (life k)).
(** The key has been retired at the latest when it is removed *)
Definition retired_by (k : key) (at_ : Z) : Prop :=
  exists x, In x [t_retire_active (k_t k); t_retire (k_t k); t_post_active (k_t k)] /\ 0 < x <= at_.

Definition is_u32 (x : Z) : Prop := 0 <= x < 2 ^ 32.
Definition policy_ok (p : policy) : Prop :=
  is_u32 (p_zsk_lifetime p) /\ is_u32 (p_ksk_lifetime p) /\ is_u32 (p_delete_delay p) /\ is_u32 (p_max_ttl p) /\ is_u32 (p_key_ttl p) /\
  is_u32 (p_prop p) /\ is_u32 (p_sbm_timeout p).
(** Rollovers of all keys are allowed, as always in the server *)
Definition allow_all (fl : rflags) : Prop := fl_ksk fl = true /\ fl_zsk fl = true.

(** What may happen to the keys of a zone: time passes, a rollover run finishes (with any policy and any
    failures on the way), the submission of a KSK is confirmed. A condition on rollover runs may be given. *)
Inductive history (ok : policy -> rflags -> Z -> list key -> Prop) : Z -> list key -> Prop :=
| h_start : forall now, 0 < now < 2 ^ 63 -> history ok now []
| h_time : forall now now' ks, history ok now ks -> now <= now' < 2 ^ 63 -> history ok now' ks
| h_roll : forall now ks fuel e p fl ks', history ok now ks -> policy_ok p -> allow_all fl -> ok p fl now ks ->
    key_rollover fuel e p fl now ks = Ok ks' -> history ok now ks'
| h_confirm : forall now ks e delay ks', history ok now ks -> is_u32 delay -> sbm_confirm e now delay ks = Ok ks' -> history ok now ks'.
Definition any_run (p : policy) (fl : rflags) (now : Z) (ks : list key) : Prop := True.
(** A KSK rollover is forced only when the policy still has the algorithm and the scheme of the KSKs in use *)
Definition forced_as_before (p : policy) (fl : rflags) (now : Z) (ks : list key) : Prop :=
  fl_force_ksk fl = true ->
  forall k, In k ks -> k_ksk k = true -> get_key_state k now = KReady \/ get_key_state k now = KActive ->
    k_alg k = p_alg p /\ k_zsk k = p_sts p.

(** The zone is signed at a time: some algorithm has a published KSK that signs the keys and a ZSK that
    signs the zone *)
Definition signed_at (now : Z) (ks : list key) : Prop :=
  exists k z, In k (zone_keys now ks) /\ In z (zone_keys now ks) /\ z_alg k = z_alg z /\
    z_ksk k = true /\ z_public k = true /\ (z_active k || z_kplus k) = true /\
    z_zsk z = true /\ (z_active z || z_zplus z) = true.

(** The same key, later: what has been set does not change any more *)
Definition later (k k' : key) : Prop :=
  k_alg k' = k_alg k /\ k_ksk k' = k_ksk k /\ k_zsk k' = k_zsk k /\ Forall2 (fun a b => a <> 0 -> b = a) (life k) (life k').
(** A key may be deleted: it has been retired, then removed, and the delay is over *)
Definition may_delete (p : policy) (now : Z) (k : key) : Prop :=
  p_keep_deleted p = false /\ 0 < t_remove (k_t k) <= now /\ retired_by k (t_remove (k_t k)) /\ t_remove (k_t k) + p_delete_delay p <= now.

(** The delays are those configured: their sums fit in 32 bits *)
Definition no_wrap (p : policy) : Prop := p_prop p + p_key_ttl p < 2 ^ 32 /\ p_prop p + p_max_ttl p < 2 ^ 32.
(** A KSK has waited for its confirmation until the configured time-out *)
Definition timeout_over (p : policy) (now : Z) (ks : list key) : Prop :=
  0 < p_sbm_timeout p /\ exists y, In y ks /\ k_ksk y = true /\ get_key_state y now = KReady /\ t_ready (k_t y) + p_sbm_timeout p <= now.
(** Whatever is done with a key, it has been waited for long enough: the new DNSKEY records and the signatures are
    known everywhere *)
Definition waited (p : policy) (now : Z) (ks : list key) (k k' : key) : Prop :=
  let t := k_t k in let t' := k_t k' in
  (k_ksk k = false -> t_active t = 0 -> t_active t' <> 0 -> t_publish t' + p_prop p + p_key_ttl p <= now) /\
  (k_ksk k = true -> t_ready t = 0 -> t_ready t' <> 0 -> t_publish t' + p_prop p + p_key_ttl p <= now) /\
  (t_publish t = 0 -> t_publish t' <> 0 -> t_pre_active t' + p_prop p + p_max_ttl p <= now) /\
  (t_remove t = 0 -> t_remove t' <> 0 ->
    (t_retire t' <> 0 -> t_retire t' + p_prop p + p_max_ttl p <= now) /\ (t_post_active t' <> 0 -> t_post_active t' + p_prop p + p_key_ttl p <= now)) /\
  (k_ksk k = true -> t_retire_active t = 0 -> t_retire_active t' <> 0 -> timeout_over p now ks).
