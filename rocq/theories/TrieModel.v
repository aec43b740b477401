(** The qp-trie, src/contrib/qp-trie/trie.c.

    A node_t is a pair of words; here it is an inductive tree: the twig array that a branch points to
    is the list of its children. Nodes are addressed by pointers in C; here the address of a node is
    the list of twig numbers on the way from the root ([path]). The copy-on-write part of the file
    (trie.c:1168-1451), where arrays are shared by two roots, is not modelled in this file. *)
From Verif Require Import Base.

(** trie_key_t is a byte, trie_val_t is a pointer (trie.h): the value 0 is NULL.
    trie.c:82-85 node_t; trie.c:54-57 tkey_t. The COW flags are not modelled in this file. *)
Inductive node :=
| Leaf (k : list Z) (v : Z)
| Branch (idx bmp : Z) (tw : list node).

(** trie.c:87-91 struct trie (without the memory context) *)
Record trie := mkt { t_root : node; t_weight : Z }.

(** Which allocations succeed: growing a node stack to n entries; the copy of a key; a twig array;
    an iterator. A failing mm_realloc that shrinks an array has no effect (trie.c:519-526). *)
Record alloc := mka { a_stack : Z -> bool; a_key : bool; a_twigs : bool; a_it : bool }.

(** trie.c:39 *)
Definition KEYLENBITS : Z := 31.
(** trie.c:102-105 *)
Definition TWIDTH_INDEX : Z := 33.
Definition TMAX_INDEX : Z := Z.shiftl 1 TWIDTH_INDEX.
(** trie.c:117, trie.c:124-131: the bitmap starts above the two flags *)
Definition TWIDTH_BMP : Z := 17.
Definition TSHIFT_BMP : Z := 2.
(** trie.c:140, 155, 158 *)
Definition TMASK_BMP : Z := Z.shiftl (Z.shiftl 1 TWIDTH_BMP - 1) TSHIFT_BMP.
Definition BMP_NOBYTE : Z := Z.shiftl 1 TSHIFT_BMP.

(** __builtin_popcount of an unsigned int *)
Definition popcount (x : Z) : Z := zlen (filter (Z.testbit x) (map Z.of_nat (seq 0 32))).

(** trie.c:161-175 mkleaf. The length is stored in a field of 31 bits, while the check in line 163
    lets the length 2^31 through. *)
Definition mkleaf (a : alloc) (key : list Z) : res node :=
  let len := zlen key in
  if len >? Z.shiftl 1 KEYLENBITS then Err KNOT_ENOMEM else
  if negb (a_key a) then Err KNOT_ENOMEM else
  Ok (Leaf (zfirstn (len mod 2 ^ KEYLENBITS) key) 0).

(** trie.c:178-185 mkbranch *)
Definition mkbranch (index bmp : Z) (tw : list node) : res node :=
  if (index <? TMAX_INDEX) && (Z.land bmp (Z.lnot TMASK_BMP) =? 0) then Ok (Branch index bmp tw) else UB.

(** trie.c:188-191 empty_root *)
Definition empty_root : node := Branch (TMAX_INDEX - 1) 0 [].

(** trie.c:203-206 isbranch *)
Definition isbranch (t : node) : bool := match t with Branch _ _ _ => true | _ => false end.
(** trie.c:208-212 tkey *)
Definition tkey (t : node) : res (list Z) := match t with Leaf k _ => Ok k | _ => UB end.
(** trie.c:221-225 branch_index *)
Definition branch_index (t : node) : res Z := match t with Branch i _ _ => Ok i | _ => UB end.
(** trie.c:227-231 branch_bmp *)
Definition branch_bmp (t : node) : res Z := match t with Branch _ b _ => Ok b | _ => UB end.
(** trie.c:238-244 branch_weight *)
Definition branch_weight (t : node) : res Z :=
  match t with
  | Branch _ b _ => let n := popcount b in if (1 <? n) && (n <=? TWIDTH_BMP) then Ok n else UB
  | _ => UB
  end.
(** trie.c:247-252 twigoff *)
Definition twigoff (t : node) (bit : Z) : res Z :=
  match t with
  | Branch _ b _ => if popcount bit =? 1 then Ok (popcount (Z.land b (bit - 1))) else UB
  | _ => UB
  end.
(** trie.c:255-267 keybit *)
Definition keybit (ni : Z) (key : list Z) : Z :=
  let bytei := Z.shiftr ni 1 in
  if bytei >=? zlen key then BMP_NOBYTE else
  match zget key bytei with
  | None => BMP_NOBYTE
  | Some ki =>
    let nibble := if Z.odd ni then Z.land ki 15 else Z.shiftr ki 4 in
    Z.shiftl 1 (nibble + 1 + TSHIFT_BMP)
  end.
(** trie.c:270-274 twigbit *)
Definition twigbit (t : node) (key : list Z) : res Z :=
  let* i := branch_index t in Ok (keybit i key).
(** trie.c:277-283 hastwig *)
Definition hastwig (t : node) (bit : Z) : res bool :=
  match t with
  | Branch _ b _ =>
    if (Z.land bit (Z.lnot TMASK_BMP) =? 0) && (popcount bit =? 1) then Ok (negb (Z.land b bit =? 0)) else UB
  | _ => UB
  end.
(** trie.c:286-290 twigs *)
Definition twigs (t : node) : res (list node) := match t with Branch _ _ tw => Ok tw | _ => UB end.
(** trie.c:293-297 twig; reading outside of the array is undefined *)
Definition twig (t : node) (i : Z) : res node :=
  let* w := branch_weight t in
  if negb (i <? w) then UB else
  let* tw := twigs t in
  match zget tw i with Some c => Ok c | None => UB end.

(** memcmp on the first n bytes *)
Fixpoint memcmp (a b : list Z) (n : nat) : Z :=
  match n, a, b with
  | S n, x :: a, y :: b => if x =? y then memcmp a b n else x - y
  | _, _, _ => 0
  end.
(** trie.c:309-325 key_cmp *)
Definition key_cmp (k1 k2 : list Z) : Z :=
  let ret := memcmp k1 k2 (Nat.min (length k1) (length k2)) in
  if negb (ret =? 0) then ret else
  if zlen k1 =? zlen k2 then 0 else
  if zlen k1 <? zlen k2 then -1 else 1.

(** trie.c:327-339 trie_create; [None] when the allocation fails *)
Definition trie_create (ok : bool) : option trie :=
  if ok then Some (mkt empty_root 0) else None.

(** trie.c:363-371 trie_clear. Freeing of memory is not modelled. *)
Definition trie_clear (t : trie) : trie :=
  if t_weight t =? 0 then t else mkt empty_root 0.

(** trie.c:429-433 trie_weight *)
Definition trie_weight (t : trie) : Z := t_weight t.

(** Bound for walks from a node to a leaf (not in the C code): the height of the tree. *)
Fixpoint height (t : node) : nat :=
  match t with
  | Leaf _ _ => 1%nat
  | Branch _ _ tw => S (fold_right (fun c n => Nat.max (height c) n) 0%nat tw)
  end.

(** An address of a node: the twig numbers from the root down. *)
Definition path := list Z.

(** Reading through a trie_val_t pointer. *)
Fixpoint val_at (t : node) (p : path) : res Z :=
  match p, t with
  | [], Leaf _ v => Ok v
  | i :: p, Branch _ _ tw => match zget tw i with Some c => val_at c p | None => UB end
  | _, _ => UB
  end.
(** Writing through a trie_val_t pointer. *)
Fixpoint write_at (t : node) (p : path) (v : Z) : res node :=
  match p, t with
  | [], Leaf k _ => Ok (Leaf k v)
  | i :: p, Branch x b tw =>
    match zget tw i with
    | Some c => let* c := write_at c p v in Ok (Branch x b (zset tw i c))
    | None => UB
    end
  | _, _ => UB
  end.

(** *** lookup *)
(** trie.c:440-447 the loop of trie_get_try: the path to the leaf, or None when a twig is missing *)
Fixpoint get_loop (fuel : nat) (t : node) (key : list Z) : res (option (path * node)) :=
  match fuel with
  | O => OOF
  | S fuel =>
    if isbranch t then
      let* b := twigbit t key in
      let* h := hastwig t b in
      if negb h then Ok None else
      let* i := twigoff t b in
      let* c := twig t i in
      let* r := get_loop fuel c key in
      Ok (match r with Some (p, l) => Some (i :: p, l) | None => None end)
    else Ok (Some ([], t))
  end.
(** trie.c:435-452 trie_get_try: the address of the value, or None for NULL *)
Definition trie_get_try (t : trie) (key : list Z) : res (option path) :=
  if t_weight t =? 0 then Ok None else
  let* r := get_loop (height (t_root t)) (t_root t) key in
  match r with
  | None => Ok None
  | Some (p, l) =>
    let* lkey := tkey l in
    if negb (key_cmp key lkey =? 0) then Ok None else Ok (Some p)
  end.

(** *** node stacks *)
(** trie.c:557-567 struct trie_it. The top of the stack comes first; each entry has the twig number of
    the node in its parent (twig_number, trie.c:299-305, computes it from the addresses), 0 for the
    root. The entries hold the nodes as they are when they are pushed. *)
Record nstack := mkns { ns_st : list (Z * node); ns_alen : Z }.

(** trie.c:569-576 ns_init *)
Definition ns_init (t : trie) : nstack :=
  mkns (if t_weight t >? 0 then [(0, t_root t)] else []) 250.

(** trie.c:598-623 ns_longer_alloc, ns_longer *)
Definition ns_longer (a : alloc) (ns : nstack) : res nstack :=
  if zlen (ns_st ns) <? ns_alen ns then Ok ns else
  let alen := ns_alen ns * 2 in
  if a_stack a alen then Ok (mkns (ns_st ns) alen) else Err KNOT_ENOMEM.

Definition ns_top (ns : nstack) : res node :=
  match ns_st ns with (_, t) :: _ => Ok t | [] => UB end.
(** ns->stack[ns->len++] = twig(t, i) *)
Definition ns_push (ns : nstack) (t : node) (i : Z) : res nstack :=
  let* c := twig t i in Ok (mkns ((i, c) :: ns_st ns) (ns_alen ns)).

(** trie.c:645-659 first loop of ns_find_branch *)
Fixpoint find_down (a : alloc) (fuel : nat) (ns : nstack) (key : list Z) : res nstack :=
  match fuel with
  | O => OOF
  | S fuel =>
    let* t := ns_top ns in
    if isbranch t then
      let* ns := ns_longer a ns in
      let* b := twigbit t key in
      let* h := hastwig t b in
      let* i := if h then twigoff t b else Ok 0 in
      let* ns := ns_push ns t i in
      find_down a fuel ns key
    else Ok ns
  end.
(** trie.c:660-666 the number of equal leading bytes *)
Fixpoint same_bytes (k1 k2 : list Z) : Z :=
  match k1, k2 with
  | x :: k1, y :: k2 => if x =? y then 1 + same_bytes k1 k2 else 0
  | _, _ => 0
  end.
(** trie.c:667-678 *)
Definition diff_index (key lkey : list Z) : Z :=
  let bytei := same_bytes key lkey in
  let index := Z.shiftl bytei 1 in
  if (bytei =? zlen key) && (zlen key =? zlen lkey) then TMAX_INDEX else
  match zget key bytei, zget lkey bytei with
  | Some k1, Some k2 => if Z.land (Z.lxor k1 k2) 240 =? 0 then index + 1 else index
  | _, _ => index
  end.
(** trie.c:679-688 *)
Fixpoint climb (st : list (Z * node)) (index : Z) : res (list (Z * node)) :=
  match st with
  | [] => UB
  | e :: up =>
    match up with
    | [] => Ok st
    | (_, p) :: _ =>
      let* i := branch_index p in
      if i <? index then Ok st else climb up index
    end
  end.
(** trie.c:690-700 the assertions on successful return *)
Definition find_asserts (st : list (Z * node)) (index : Z) : bool :=
  match st with
  | [] => false
  | (_, t) :: up =>
    match t with Branch i _ _ => index <=? i | Leaf _ _ => true end &&
    match up with
    | [] => true
    | (_, Branch i _ _) :: _ => (i <? index) || (index =? TMAX_INDEX)
    | (_, Leaf _ _) :: _ => false
    end
  end.
(** trie.c:641-705 ns_find_branch: the stack, idiff, tbit, kbit *)
Definition ns_find_branch (a : alloc) (ns : nstack) (key : list Z) : res (nstack * Z * Z * Z) :=
  let* t := ns_top ns in
  let* ns := find_down a (height t) ns key in
  let* l := ns_top ns in
  let* lkey := tkey l in
  let index := diff_index key lkey in
  let* st := if index =? TMAX_INDEX then Ok (ns_st ns) else climb (ns_st ns) index in
  if find_asserts st index then
    Ok (mkns st (ns_alen ns), index, keybit index lkey, keybit index key)
  else UB.

(** trie.c:712-723 ns_last_leaf *)
Fixpoint last_leaf (a : alloc) (fuel : nat) (ns : nstack) : res nstack :=
  match fuel with
  | O => OOF
  | S fuel =>
    let* ns := ns_longer a ns in
    let* t := ns_top ns in
    if negb (isbranch t) then Ok ns else
    let* w := branch_weight t in
    let* ns := ns_push ns t (w - 1) in
    last_leaf a fuel ns
  end.
Definition ns_last_leaf (a : alloc) (ns : nstack) : res nstack :=
  let* t := ns_top ns in last_leaf a (height t) ns.
(** trie.c:730-740 ns_first_leaf *)
Fixpoint first_leaf (a : alloc) (fuel : nat) (ns : nstack) : res nstack :=
  match fuel with
  | O => OOF
  | S fuel =>
    let* ns := ns_longer a ns in
    let* t := ns_top ns in
    if negb (isbranch t) then Ok ns else
    let* ns := ns_push ns t 0 in
    first_leaf a fuel ns
  end.
Definition ns_first_leaf (a : alloc) (ns : nstack) : res nstack :=
  let* t := ns_top ns in first_leaf a (height t) ns.

(** trie.c:760-769 the loop of ns_prev_leaf *)
Fixpoint prev_up (a : alloc) (st : list (Z * node)) (alen : Z) : res nstack :=
  match st with
  | [] => Err KNOT_ENOENT
  | (ci, _) :: up =>
    match up with
    | [] => Err KNOT_ENOENT
    | (_, p) :: _ =>
      if ci =? 0 then prev_up a up alen else
      let* ns := ns_push (mkns up alen) p (ci - 1) in
      ns_last_leaf a ns
    end
  end.
(** trie.c:748-771 ns_prev_leaf *)
Definition ns_prev_leaf (a : alloc) (ns : nstack) : res nstack :=
  let* t := ns_top ns in
  let* h := if isbranch t then hastwig t BMP_NOBYTE else Ok false in
  if h then
    let* ns := ns_longer a ns in
    ns_push ns t 0
  else prev_up a (ns_st ns) (ns_alen ns).

(** trie.c:787-806 the loop of ns_next_leaf. In line 791 the flag is looked up in the child t, which
    is undefined when t is a leaf. *)
Fixpoint next_up (a : alloc) (skip : bool) (st : list (Z * node)) (alen : Z) : res nstack :=
  match st with
  | [] => Err KNOT_ENOENT
  | (ci, t) :: up =>
    match up with
    | [] => Err KNOT_ENOENT
    | (_, p) :: _ =>
      let* h := if skip && (ci =? 0) then hastwig t BMP_NOBYTE else Ok false in
      if h then next_up a skip up alen else
      let* cc := branch_weight p in
      if negb (ci + 1 <=? cc) then UB else
      if ci + 1 =? cc then next_up a skip up alen else
      let* ns := ns_push (mkns up alen) p (ci + 1) in
      ns_first_leaf a ns
    end
  end.
(** trie.c:780-808 ns_next_leaf *)
Definition ns_next_leaf (a : alloc) (skip : bool) (ns : nstack) : res nstack :=
  let* t := ns_top ns in
  if negb skip && isbranch t then ns_first_leaf a ns else
  next_up a skip (ns_st ns) (ns_alen ns).

(** trie.c:815-828 the loop of ns_prefix; [st] is the stack after --ns->len. The comparison of the
    addresses end == start (line 824): [start] was the first twig of this very p. *)
Fixpoint prefix_up (first : bool) (ci : Z) (st : list (Z * node)) (alen : Z) : res nstack :=
  match st with
  | [] => Err KNOT_ENOENT
  | (cj, p) :: up =>
    let* h := hastwig p BMP_NOBYTE in
    if negb h then prefix_up false cj up alen else
    if first && (ci =? 0) then prefix_up false cj up alen else
    ns_push (mkns st alen) p 0
  end.
(** trie.c:811-830 ns_prefix *)
Definition ns_prefix (ns : nstack) : res nstack :=
  match ns_st ns with
  | [] => UB
  | (ci, _) :: up => prefix_up true ci up (ns_alen ns)
  end.

(** trie.c:837-877 ns_get_leq: true for an exact match (KNOT_EOK), false for the result 1 *)
Definition ns_get_leq (a : alloc) (ns : nstack) (key : list Z) : res (bool * nstack) :=
  let* (ns, idiff, tbit, kbit) := ns_find_branch a ns key in
  let* t := ns_top ns in
  if idiff =? TMAX_INDEX then Ok (true, ns) else
  let* r :=
    if match t with Branch i _ _ => i =? idiff | Leaf _ _ => false end then Ok (Some (ns, t, kbit)) else
    match ns_st ns with
    | [] => UB
    | [_] => Ok None
    | _ :: (j, p) :: up =>
      let* b := twigbit p key in
      Ok (Some (mkns ((j, p) :: up) (ns_alen ns), p, b))
    end in
  match r with
  | None =>
    if kbit <? tbit then Err KNOT_ENOENT else
    let* ns := ns_last_leaf a ns in Ok (false, ns)
  | Some (ns, t, b) =>
    let* h := hastwig t b in
    let* o := twigoff t b in
    let i := if h then o - (if kbit <? tbit then 1 else 0) else o - 1 in
    if 0 <=? i then
      let* ns := ns_longer a ns in
      let* ns := ns_push ns t i in
      let* ns := ns_last_leaf a ns in Ok (false, ns)
    else
      let* ns := ns_prev_leaf a ns in Ok (false, ns)
  end.

(** The address of the top of a stack. *)
Definition ns_path (st : list (Z * node)) : path :=
  match rev (map fst st) with [] => [] | _ :: p => p end.

(** trie.c:879-900 trie_get_leq: Ok (true, p): exact match; Ok (false, p): the result 1; otherwise the
    error code, with *val set to NULL. *)
Definition trie_get_leq (a : alloc) (t : trie) (key : list Z) : res (bool * path) :=
  if t_weight t =? 0 then Err KNOT_ENOENT else
  let* (e, ns) := ns_get_leq a (ns_init t) key in
  match ns_st ns with
  | (_, Leaf _ _) :: _ => Ok (e, ns_path (ns_st ns))
  | _ => UB
  end.

(** *t = n, where t is the top of the stack: the new root *)
Fixpoint plug (st : list (Z * node)) (n : node) : res node :=
  match st with
  | [] => UB
  | (ci, _) :: up =>
    match up with
    | [] => Ok n
    | (_, Branch i b tw) :: _ => plug up (Branch i b (zset tw ci n))
    | (_, Leaf _ _) :: _ => UB
    end
  end.

(** trie.c:924-991 cow_get_ins with cow = NULL, that is trie_get_ins: the trie and the address of the
    value, None for NULL. *)
Definition trie_get_ins (a : alloc) (t : trie) (key : list Z) : res (trie * option path) :=
  if t_weight t =? 0 then
    match mkleaf a key with
    | Ok l => Ok (mkt l (t_weight t + 1), Some [])
    | Err _ => Ok (t, None)
    | UB => UB
    | OOF => OOF
    end
  else
  match ns_find_branch a (ns_init t) key with
  | Err _ => Ok (t, None)
  | UB => UB
  | OOF => OOF
  | Ok (ns, idiff, tbit, kbit) =>
    let* n := ns_top ns in
    if idiff =? TMAX_INDEX then Ok (t, Some (ns_path (ns_st ns))) else
    match mkleaf a key with
    | Err _ => Ok (t, None)
    | UB => UB
    | OOF => OOF
    | Ok leaf =>
      if match n with Branch i _ _ => i =? idiff | Leaf _ _ => false end then
        let* h := hastwig n kbit in
        if h then UB else
        let* s := twigoff n kbit in
        let* m := branch_weight n in
        let* tw := twigs n in
        let* bmp := branch_bmp n in
        if negb (a_twigs a) then Ok (t, None) else
        let* n' := mkbranch idiff (Z.lor bmp kbit) (zfirstn s tw ++ leaf :: zskipn s tw) in
        let* r := plug (ns_st ns) n' in
        Ok (mkt r (t_weight t + 1), Some (ns_path (ns_st ns) ++ [s]))
      else
        let* h := match ns_st ns with
          | _ :: (_, pt) :: _ => let* b := twigbit pt key in hastwig pt b
          | _ => Ok true
          end in
        if negb h then UB else
        if negb (a_twigs a) then Ok (t, None) else
        let* n' := mkbranch idiff (Z.lor tbit kbit) [Leaf [] 0; Leaf [] 0] in
        let* i := twigoff n' tbit in
        let* _ := twig n' i in
        let* j := twigoff n' kbit in
        let* _ := twig n' j in
        let* n' := mkbranch idiff (Z.lor tbit kbit) (zset (zset [Leaf [] 0; Leaf [] 0] i n) j leaf) in
        let* r := plug (ns_st ns) n' in
        Ok (mkt r (t_weight t + 1), Some (ns_path (ns_st ns) ++ [j]))
    end
  end.

(** *** deletion *)
(** trie.c:495-527 del_found: t is the top of the stack and p the entry below it; the trie and the
    deleted value *)
Definition del_found (t : trie) (st : list (Z * node)) (b : Z) : res (trie * Z) :=
  match st with
  | [] => UB
  | (ci, l) :: up =>
    match l with
    | Branch _ _ _ => UB
    | Leaf _ v =>
      let w := t_weight t - 1 in
      match up with
      | [] => if w =? 0 then Ok (mkt empty_root w, v) else UB
      | (_, p) :: _ =>
        let* i := branch_index p in
        let* bmp := branch_bmp p in
        let* tw := twigs p in
        let* cc := branch_weight p in
        if negb ((0 <=? ci) && (ci <? cc)) then UB else
        let* p' :=
          if cc =? 2 then
            match zget tw (1 - ci) with Some c => Ok c | None => UB end
          else Ok (Branch i (Z.land bmp (Z.lnot b)) (zfirstn ci tw ++ zskipn (ci + 1) tw)) in
        let* r := plug up p' in
        Ok (mkt r w, v)
      end
    end
  end.
(** trie.c:534-543 the loop of trie_del: the stack of the nodes passed and the last bit *)
Fixpoint del_loop (fuel : nat) (st : list (Z * node)) (b : Z) (key : list Z) : res (option (list (Z * node) * Z)) :=
  match fuel with
  | O => OOF
  | S fuel =>
    match st with
    | [] => UB
    | (_, t) :: _ =>
      if isbranch t then
        let* b := twigbit t key in
        let* h := hastwig t b in
        if negb h then Ok None else
        let* i := twigoff t b in
        let* c := twig t i in
        del_loop fuel ((i, c) :: st) b key
      else Ok (Some (st, b))
    end
  end.
(** trie.c:529-550 trie_del *)
Definition trie_del (t : trie) (key : list Z) : res (trie * Z) :=
  if t_weight t =? 0 then Err KNOT_ENOENT else
  let* r := del_loop (height (t_root t)) [(0, t_root t)] 0 key in
  match r with
  | None => Err KNOT_ENOENT
  | Some (st, b) =>
    match st with
    | [] => UB
    | (_, l) :: _ =>
      let* lkey := tkey l in
      if negb (key_cmp key lkey =? 0) then Err KNOT_ENOENT else del_found t st b
    end
  end.

(** *** visiting all values *)
(** trie.c:999-1008 apply_nodes: the callback gets the value and may replace it; it has a state of its
    own and returns a code. *)
Fixpoint apply_nodes {S} (f : Z -> S -> Z * S * Z) (t : node) (s : S) : node * S * Z :=
  match t with
  | Leaf k v => let '(v, s, r) := f v s in (Leaf k v, s, r)
  | Branch i b tw =>
    let fix go (l : list node) (s : S) : list node * S * Z :=
      match l with
      | [] => ([], s, KNOT_EOK)
      | c :: l =>
        let '(c, s, r) := apply_nodes f c s in
        if negb (r =? KNOT_EOK) then (c :: l, s, r) else
        let '(l, s, r) := go l s in (c :: l, s, r)
      end in
    let '(tw, s, r) := go tw s in (Branch i b tw, s, r)
  end.
(** trie.c:1010-1016 trie_apply *)
Definition trie_apply {S} (f : Z -> S -> Z * S * Z) (t : trie) (s : S) : trie * S * Z :=
  if t_weight t =? 0 then (t, s, KNOT_EOK) else
  let '(r, s, e) := apply_nodes f (t_root t) s in (mkt r (t_weight t), s, e).

(** *** iterators *)
(** trie.c:1019-1034 trie_it_begin *)
Definition trie_it_begin (a : alloc) (t : trie) : res (option nstack) :=
  if negb (a_it a) then Ok None else
  let it := ns_init t in
  match ns_st it with
  | [] => Ok (Some it)
  | _ =>
    match ns_first_leaf a it with
    | Ok it => Ok (Some it)
    | Err _ => Ok None
    | UB => UB
    | OOF => OOF
    end
  end.
(** trie.c:1036-1040 trie_it_finished *)
Definition trie_it_finished (it : nstack) : bool := match ns_st it with [] => true | _ => false end.
(** it->len = 0 *)
Definition it_end (it : nstack) : nstack := mkns [] (ns_alen it).
(** trie.c:1073-1082 trie_it_key *)
Definition trie_it_key (it : nstack) : res (list Z) := let* t := ns_top it in tkey t.
(** trie.c:1084-1090 trie_it_val: the value it points to *)
Definition trie_it_val (it : nstack) : res Z :=
  let* t := ns_top it in match t with Leaf _ v => Ok v | _ => UB end.
(** trie.c:1092-1097 trie_it_next *)
Definition trie_it_next (a : alloc) (it : nstack) : res nstack :=
  match ns_next_leaf a false it with Ok it => Ok it | Err _ => Ok (it_end it) | UB => UB | OOF => OOF end.
(** it->len = 1: only the root stays on the stack *)
Definition it_root (it : nstack) : nstack := mkns (match rev (ns_st it) with [] => [] | e :: _ => [e] end) (ns_alen it).
(** trie.c:1099-1109 trie_it_next_loop *)
Definition trie_it_next_loop (a : alloc) (it : nstack) : res nstack :=
  let r := match ns_next_leaf a false it with
    | Err e => if e =? KNOT_ENOENT then ns_first_leaf a (it_root it) else Err e
    | r => r
    end in
  match r with Err _ => Ok (it_end it) | r => r end.
(** trie.c:1111-1116 trie_it_next_nosuffix *)
Definition trie_it_next_nosuffix (a : alloc) (it : nstack) : res nstack :=
  match ns_next_leaf a true it with Ok it => Ok it | Err _ => Ok (it_end it) | UB => UB | OOF => OOF end.
(** trie.c:1118-1123 trie_it_prev *)
Definition trie_it_prev (a : alloc) (it : nstack) : res nstack :=
  match ns_prev_leaf a it with Ok it => Ok it | Err _ => Ok (it_end it) | UB => UB | OOF => OOF end.
(** trie.c:1125-1135 trie_it_prev_loop *)
Definition trie_it_prev_loop (a : alloc) (it : nstack) : res nstack :=
  let r := match ns_prev_leaf a it with
    | Err e => if e =? KNOT_ENOENT then ns_last_leaf a (it_root it) else Err e
    | r => r
    end in
  match r with Err _ => Ok (it_end it) | r => r end.
(** trie.c:1137-1142 trie_it_parent *)
Definition trie_it_parent (it : nstack) : res nstack :=
  match ns_prefix it with Ok it => Ok it | Err _ => Ok (it_end it) | UB => UB | OOF => OOF end.
(** trie.c:1144-1166 trie_it_del *)
Definition trie_it_del (t : trie) (it : nstack) : res (trie * nstack) :=
  let* b := match ns_st it with
    | [] => UB
    | [_] => Ok 0
    | _ :: (_, p) :: _ => let* key := trie_it_key it in twigbit p key
    end in
  let* (t, _) := del_found t (ns_st it) b in
  Ok (t, it_end it).
(** trie.c:902-918 trie_it_get_leq: true for an exact match, false for the result 1 *)
Definition trie_it_get_leq (a : alloc) (t : trie) (key : list Z) : res (bool * nstack) :=
  if t_weight t =? 0 then Err KNOT_ENOENT else
  ns_get_leq a (ns_init t) key.
