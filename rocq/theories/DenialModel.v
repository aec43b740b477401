(** Denial of existence with NSEC in answers: the search of src/knot/nameserver/internet.c:372-477 and its authority
    section of DNSSEC (561-589), with src/knot/nameserver/nsec_proofs.c and zone_contents_find_dname
    (src/knot/zone/contents.c:295-344).

    Zones are those of NsecModel.v: normal nodes in the canonical order, names in lower case without zero octets.
    Simplifications. The zone has no NSEC3 chain. One name is looked up: where the code would follow a CNAME or a DNAME
    the outcome is [Follow] and nothing is proved. The packet has room, so that every record fits. Query types ANY,
    RRSIG and NSEC are not modelled. A failing assertion is [UB]. *)
From Verif Require Import Base DnameSpec NsecModel.

Definition name : Type := list label.
(** A record put to the authority section: the owner and the data of an NSEC *)
Definition rec : Type := (name * nsec)%type.
Definition T_CNAME : Z := 5.
Definition T_DNAME : Z := 39.
Definition has_type (n : node) (t : Z) : bool := existsb (Z.eqb t) (n_types n).
(** src/libknot/dname.h:215-218 *)
Definition star : label := [42].
Definition is_wildcard (x : name) : bool := match x with l :: _ => octets_eqb l star | [] => false end.
(** src/libknot/dname.c:510-531 knot_dname_size: octets on the wire *)
Fixpoint wire_size (x : name) : Z := match x with [] => 1 | l :: x => 1 + zlen l + wire_size x end.

(** src/knot/zone/adjust.c:372-408 node->prev: the previous authoritative node with RRsets, for the first node the last
    such one *)
Definition node_prev (z : zone) (x : name) : option name :=
  match last_opt (filter (fun y => name_ltb y x) (auth_names z)) with Some y => Some y | None => last_opt (auth_names z) end.
(** src/knot/zone/node.h node_parent: the node of the name without its first label *)
Definition node_parent (z : zone) (x : name) : option name :=
  match x with [] => None | _ :: p => match nget z p with Some _ => Some p | None => None end end.

(** src/libknot/dname.c:554-583 knot_dname_matched_labels: labels in common from the right *)
Fixpoint matched_rev (a b : list label) : nat :=
  match a, b with x :: a, y :: b => if octets_eqb x y then S (matched_rev a b) else O | _, _ => O end.
Definition matched_labels (a b : name) : nat := matched_rev (rev a) (rev b).
(** contents.c:337-340 *)
Fixpoint climb (fuel : nat) (z : zone) (x : name) (matched : nat) : res name :=
  match fuel with
  | O => OOF
  | S fuel => if (matched <? length x)%nat then match node_parent z x with Some p => climb fuel z p matched | None => UB end
              else Ok x
  end.
(** src/knot/zone/zone-tree.c:146-198 zone_tree_get_less_or_equal and contents.c:295-344 zone_contents_find_dname for a
    name in the bailiwick: the match, the closest encloser and the previous node *)
Definition find_dname (z : zone) (q : name) : res (option name * name * name) :=
  match nget z q with
  | Some _ => match node_prev z q with Some p => Ok (Some q, q, p) | None => UB end
  | None =>
    let prev := match last_opt (filter (fun y => name_ltb y q) (map fst z)) with
                | Some p => Some p
                | None => match map fst z with [] => None | first :: _ => node_prev z first end
                end in
    match prev with
    | None => UB
    | Some p => let* c := climb (S (length p)) z p (matched_labels p q) in Ok (None, c, p)
    end
  end.

(** nsec_proofs.c:27-30, 35-38, 55-58 *)
Definition empty_nonterminal (n : node) : bool := no_rrsets n.
Definition wildcard_expanded (owner q : name) : bool := negb (is_wildcard q) && is_wildcard owner.
Definition node_in_nsec (n : node) : bool := negb (n_nonauth n) && negb (empty_nonterminal n).
(** nsec_proofs.c:77-87 *)
Fixpoint nsec_previous (fuel : nat) (z : zone) (p : name) : res name :=
  match fuel with
  | O => OOF
  | S fuel =>
    match nget z p with
    | None => UB
    | Some n => if node_in_nsec n then Ok p
                else match node_prev z p with Some p => nsec_previous fuel z p | None => UB end
    end
  end.
(** nsec_proofs.c:137-163 put_nsec_from_node: nothing if there is no NSEC; a record already there is not put again *)
Definition put_nsec_from_node (z : zone) (x : name) (out : list rec) : res (list rec) :=
  match nget z x with
  | None => UB
  | Some n => if existsb (fun r => name_eqb (fst r) x) out then Ok out else Ok (out ++ map (fun s => (x, s)) (n_nsec n))
  end.
Definition put_previous (z : zone) (p : name) (out : list rec) : res (list rec) :=
  let* x := nsec_previous (S (length z)) z p in put_nsec_from_node z x out.
(** nsec_proofs.c:182-205 *)
Definition put_covering_nsec (z : zone) (x : name) (out : list rec) : res (list rec) :=
  let* (match_, _, prev) := find_dname z x in
  match match_ with Some m => put_nsec_from_node z m out | None => put_previous z prev out end.
(** nsec_proofs.c:376-408 *)
Definition put_nsec_nxdomain (z : zone) (previous closest : name) (out : list rec) : res (list rec) :=
  let* out := put_previous z previous out in
  if wire_size closest >? 255 - 2 then Err KNOT_EINVAL else put_covering_nsec z (star :: closest) out.
(** nsec_proofs.c:496-506 *)
Definition put_nsec_nodata (z : zone) (match_ previous : name) (out : list rec) : res (list rec) :=
  match nget z match_ with
  | None => UB
  | Some n => if empty_nonterminal n then put_previous z previous out else put_nsec_from_node z match_ out
  end.
(** nsec_proofs.c:337-358 with put_nsec_wildcard *)
Definition put_wildcard_answer (z : zone) (wildcard previous q : name) (out : list rec) : res (list rec) :=
  if negb (wildcard_expanded wildcard q) then Ok out else put_previous z previous out.

(** internet.c: KNOTD_IN_STATE_* of a search; [Follow]: a CNAME or a DNAME is to be followed *)
Inductive outcome := Hit | Miss | NoData | Deleg | Follow.
(** internet.c:372-407 name_found *)
Definition name_found (n : node) (t : Z) : outcome :=
  if (n_deleg n && negb (t =? T_DS)) || n_nonauth n then Deleg
  else if has_type n T_CNAME && negb (t =? T_CNAME) then Follow
  else if has_type n t then Hit else NoData.
(** internet.c:443-448: an authoritative encloser with RRsets *)
Fixpoint auth_encloser (fuel : nat) (z : zone) (x : name) : res name :=
  match fuel with
  | O => OOF
  | S fuel =>
    match nget z x with
    | None => UB
    | Some n => if no_rrsets n || n_nonauth n then match node_parent z x with Some p => auth_encloser fuel z p | None => UB end
                else Ok x
    end
  end.
(** The outcome, the node, the encloser, the previous node, and the wildcard to be proved if one was visited *)
Record found := mkfound { f_state : outcome; f_node : option name; f_encloser : name; f_previous : name; f_wildcard : option name }.
(** internet.c:409-457 name_not_found; NODE_FLAGS_WILDCARD_CHILD (src/knot/zone/zone-tree.c:252) says that the node of the
    wildcard is there; wildcard_visit (39-56) keeps no node which is not authoritative *)
Definition name_not_found (z : zone) (closest previous : name) (t : Z) : res found :=
  match nget z (star :: closest), nget z closest with
  | _, None => UB
  | Some w, _ => Ok (mkfound (name_found w t) (Some (star :: closest)) closest previous
                             (if n_nonauth w then None else Some (star :: closest)))
  | None, Some e =>
    if negb (n_nonauth e || n_deleg e) && has_type e T_DNAME then Ok (mkfound Follow (Some closest) closest previous None)
    else
      let* a := auth_encloser (S (length closest)) z closest in
      match nget z a with
      | None => UB
      | Some n => if n_deleg n then Ok (mkfound Deleg (Some a) closest previous None)
                  else Ok (mkfound Miss None closest previous None)
      end
  end.
(** internet.c:459-477 solve_name *)
Definition solve_name (z : zone) (q : name) (t : Z) : res found :=
  let* (match_, closest, previous) := find_dname z q in
  match match_ with
  | Some m => match nget z m with None => UB | Some n => Ok (mkfound (name_found n t) (Some m) closest previous None) end
  | None => name_not_found z closest previous t
  end.

(** internet.c:183-194 put_delegation: the node becomes the delegation point *)
Fixpoint deleg_point (fuel : nat) (z : zone) (x : name) : res name :=
  match fuel with
  | O => OOF
  | S fuel =>
    match nget z x with
    | None => UB
    | Some n => if n_deleg n then Ok x else match node_parent z x with Some p => deleg_point fuel z p | None => UB end
    end
  end.
(** nsec_proofs.c:616-636 nsec_prove_dp_security; [true]: the DS records of the node are put *)
Definition prove_dp_security (z : zone) (x previous : name) (out : list rec) : res (list rec * option name) :=
  match nget z x with
  | None => UB
  | Some n => if has_type n T_DS then Ok (out, Some x) else let* out := put_nsec_nodata z x previous out in Ok (out, None)
  end.
(** internet.c:523-589 solve_authority and solve_authority_dnssec; the last component is the node whose DS was put *)
Definition solve_authority_dnssec (z : zone) (q : name) (f : found) : res (list rec * option name) :=
  let* (out, ds) :=
    match f_state f, f_node f with
    | Miss, _ => let* out := put_nsec_nxdomain z (f_previous f) (f_encloser f) [] in Ok (out, None)
    | NoData, Some x => let* out := put_nsec_nodata z x (f_previous f) [] in Ok (out, None)
    | Deleg, Some x => let* d := deleg_point (S (length x)) z x in prove_dp_security z d (f_previous f) []
    | NoData, None | Deleg, None => UB
    | Hit, _ | Follow, _ => Ok ([], None)
    end in
  let* out := match f_wildcard f with Some w => put_wildcard_answer z w (f_previous f) q out | None => Ok out end in
  Ok (out, ds).
(** The answer to a query with the DO bit: the outcome, the NSEC records and the owner of the DS records of its authority
    section *)
Definition answer (z : zone) (q : name) (t : Z) : res (outcome * (list rec * option name)) :=
  let* f := solve_name z q t in
  let* r := solve_authority_dnssec z q f in Ok (f_state f, r).
