(** The size and the largest TTL of a zone, from its records *)
From Verif Require Import Base MeasureModel.

(** The records of a node: the octets of each on the wire without compression (owner, type, class, TTL, length and
    rdata), and its TTL *)
Definition records (n : node) : list (Z * Z) :=
  flat_map (fun r => map (fun len => (r_owner r + 2 + 2 + 4 + 2 + len, r_ttl r)) (r_lens r)) n.
Definition zone_records (names : list Z) (at_ : Z -> node) : list (Z * Z) := flat_map (fun x => records (at_ x)) names.
Fixpoint total (l : list Z) : Z := match l with [] => 0 | x :: l => x + total l end.
Definition size_right (z : zone) : Prop := z_size z = total (map fst (zone_records (z_names z) (z_at z))).
(** No record has a larger TTL, *)
Definition ttl_bound (z : zone) : Prop := Forall (fun t => t <= z_max_ttl z) (map snd (zone_records (z_names z) (z_at z))).
(** and some record has this one; a zone without records has 0. *)
Definition ttl_right (z : zone) : Prop :=
  ttl_bound z /\ (In (z_max_ttl z) (map snd (zone_records (z_names z) (z_at z))) \/ (z_max_ttl z = 0 /\ zone_records (z_names z) (z_at z) = [])).

(** A zone the server keeps: each name once, no RRset without records, TTLs that are not negative, and no records at
    other names *)
Definition contents (names : list Z) (at_ : Z -> node) : Prop :=
  NoDup names /\ (forall x, ~ In x names -> at_ x = []) /\
  (forall x r, In r (at_ x) -> r_lens r <> [] /\ 0 <= r_ttl r).
(** An update tells what it touched. *)
Definition touches (old new : Z -> node) (touched : list Z) : Prop :=
  NoDup touched /\ forall x, ~ In x touched -> new x = old x.

(** What happens to a zone: it is loaded and measured, then updated any number of times. [ok] says that no allocation
    failed. *)
Inductive history : zone -> bool -> Prop :=
| hist_load names at_ z : contents names at_ -> adjust_full names at_ = Ok z -> history z true
| hist_update old ok touched names at_ mem z : history old ok -> contents names at_ -> touches (z_at old) at_ touched ->
    adjust_update old touched names at_ mem = Ok z -> history z (ok && mem).
