(** The size and the largest TTL of a zone: src/knot/zone/measure.c and its use in src/knot/zone/adjust.c.

    Simplifications. Names are integers; a node is the list of its RRsets, of an RRset only what is measured is kept.
    Sums do not wrap (size_t, ssize_t). The two trees of a zone (nodes, then nsec3_nodes) are one list of names. *)
From Verif Require Import Base.

(** Octets of the owner on the wire, the TTL, and the lengths of the rdata *)
Record rrset := mkrrset { r_owner : Z; r_ttl : Z; r_lens : list Z }.
Definition node : Type := list rrset.
(** src/libknot/rrset.c:199-217 *)
Definition rrset_size (r : rrset) : Z :=
  fold_left (fun total len => total + (len + 10)) (r_lens r) (r_owner r * zlen (r_lens r)).

(** src/knot/zone/measure.h:21-44 *)
Inductive how_size := SIZE_NONE | SIZE_WHOLE | SIZE_DIFF.
Inductive how_ttl := TTL_NONE | TTL_WHOLE | TTL_DIFF | TTL_LIMIT.
Record measure := mkm { m_size : how_size; m_ttl : how_ttl; zone_size : Z; max_ttl : Z; rem_max_ttl : Z; limit_max_ttl : Z }.

(** src/knot/zone/measure.c:19-32; a failing assertion is [UB] *)
Definition measure_init (whole diff : bool) : res measure :=
  if whole && diff then UB
  else Ok (mkm (if diff then SIZE_DIFF else if whole then SIZE_WHOLE else SIZE_NONE)
               (if diff then TTL_DIFF else if whole then TTL_WHOLE else TTL_NONE) 0 0 0 0).

(** src/knot/zone/measure.c:34-68; [counter] is the other version of the node *)
Definition measure_rrset (m : measure) (r : rrset) : measure :=
  mkm (m_size m) (m_ttl m)
      (match m_size m with SIZE_NONE => zone_size m | _ => zone_size m + rrset_size r end)
      (match m_ttl m with TTL_NONE => max_ttl m | _ => Z.max (max_ttl m) (r_ttl r) end)
      (rem_max_ttl m) (limit_max_ttl m).
Definition measure_counter (m : measure) (r : rrset) : measure :=
  mkm (m_size m) (m_ttl m)
      (match m_size m with SIZE_DIFF => zone_size m - rrset_size r | _ => zone_size m end)
      (max_ttl m)
      (match m_ttl m with TTL_DIFF => Z.max (rem_max_ttl m) (r_ttl r) | _ => rem_max_ttl m end) (limit_max_ttl m).
Definition enough (m : measure) : bool :=
  match m_size m, m_ttl m with
  | SIZE_NONE, TTL_NONE => true
  | SIZE_NONE, TTL_LIMIT => max_ttl m >=? limit_max_ttl m
  | _, _ => false
  end.
Definition is_diff (m : measure) : bool := match m_size m, m_ttl m with SIZE_DIFF, _ | _, TTL_DIFF => true | _, _ => false end.
Definition measure_node (nd counter : node) (m : measure) : bool * measure :=
  if enough m then (false, m)
  else
    let m := fold_left measure_rrset nd m in
    if negb (is_diff m) then (true, m)
    else (true, fold_left measure_counter counter m).

(** A zone: the names of its nodes, in the order of the trees, the nodes, and what was measured
    (zone_contents_t, size and max_ttl) *)
Record zone := mkzone { z_names : list Z; z_at : Z -> node; z_size : Z; z_max_ttl : Z }.

(** src/knot/zone/adjust.c:345-361, 388-404: the nodes of a tree are measured one by one *)
Definition measure_nodes (l : list (node * node)) (m : measure) : measure :=
  fold_left (fun m p => snd (measure_node (fst p) (snd p) m)) l m.
(** src/knot/zone/adjust.c:494-519 with src/knot/zone/measure.c:91-101: the whole zone *)
Definition adjust_full (names : list Z) (at_ : Z -> node) : res zone :=
  let* m := measure_init true false in
  let m := measure_nodes (map (fun x => (at_ x, [])) names) m in
  Ok (mkzone names at_ (zone_size m) (max_ttl m)).

(** src/knot/zone/measure.c:70-89; [mem] tells whether the iterator can be allocated *)
Fixpoint re_measure_loop (l : list node) (m : measure) : measure :=
  match l with
  | [] => m
  | nd :: l => let '(go, m) := measure_node nd [] m in if go then re_measure_loop l m else m
  end.
Definition re_measure_max_ttl (names : list Z) (at_ : Z -> node) (limit : Z) (mem : bool) : Z :=
  if negb mem then limit
  else max_ttl (re_measure_loop (map at_ names) (mkm SIZE_NONE TTL_LIMIT 0 0 0 limit)).
(** src/knot/zone/measure.c:103-133 *)
Definition finish_update (m : measure) (old new : zone) (mem : bool) : zone :=
  let size := match m_size m with SIZE_NONE => z_size new | SIZE_WHOLE => zone_size m | SIZE_DIFF => z_size old + zone_size m end in
  let ttl := match m_ttl m with
             | TTL_NONE => z_max_ttl new
             | TTL_WHOLE | TTL_LIMIT => max_ttl m
             | TTL_DIFF =>
                 if max_ttl m >=? z_max_ttl old then max_ttl m
                 else if z_max_ttl old >? rem_max_ttl m then z_max_ttl old
                 else re_measure_max_ttl (z_names new) (z_at new) (z_max_ttl old) mem
             end in
  mkzone (z_names new) (z_at new) size ttl.
(** src/knot/zone/adjust.c:524-540: after an incremental update the nodes it touched are measured, with their
    counterparts (node_ptrs and nsec3_ptrs of src/knot/updates/apply.h). A node that was deleted is empty in the new
    version, one that was added in the old one. The new contents start with what was measured for the old ones
    (src/knot/zone/contents.c:506). *)
Definition adjust_update (old : zone) (touched names : list Z) (at_ : Z -> node) (mem : bool) : res zone :=
  let* m := measure_init false true in
  let m := measure_nodes (map (fun x => (at_ x, z_at old x)) touched) m in
  Ok (finish_update m old (mkzone names at_ (z_size old) (z_max_ttl old)) mem).
