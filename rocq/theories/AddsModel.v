(** The reverse index of additional names, src/knot/zone/adds_tree.c, and its use in src/knot/zone/adjust.c.

    Simplifications. The trie is a sorted list of keys with values (C29, C30 are about the trie itself). A node is the
    address of its first half; what the halves hold is a parameter. A callback only notes for which node it was called
    (it never fails). Allocations of the trie itself do not fail. *)
From Verif Require Import Base LmdbModel.

Definition name : Type := list (list Z).
(** src/libknot/dname.c:764-791 without the length in front: the labels from the right, each ended by a zero *)
Definition key (n : name) : list Z := concat (map (fun l => l ++ [0]) (rev n)).
(** src/libknot/dname.c:793-810, with the comparison to 0 of src/knot/zone/adds_tree.c:63 *)
Definition name_eqb (a b : name) : bool := if list_eq_dec (list_eq_dec Z.eq_dec) a b then true else false.
Definition below (n apex : name) : bool :=
  let label_diff := zlen n - zlen apex in
  (label_diff >? 0) && name_eqb (skipn (Z.to_nat label_diff) n) apex.

(** src/knot/zone/node.h:70-75: of an RRset the type, the pointer to the rdata and the names in them *)
Record rr := mkrr { rr_type : Z; rr_ptr : Z; rr_names : list name }.
(** src/knot/zone/node.h:32-55: one half of a node; [v_rrs] is the pointer to the array of RRsets *)
Record version := mkver { v_owner : name; v_deleted : bool; v_rrs : Z; v_list : list rr }.

(** src/libknot/descriptor.c:355-362 *)
Definition additional_needed (type : Z) : bool :=
  (type =? 2) || (type =? 15) || (type =? 33) || (type =? 64) || (type =? 65).

(** node_rdataset, src/knot/zone/node.c (declared in src/knot/zone/node.h:266-275) *)
Definition rdataset (v : version) (type : Z) : option rr := find (fun r => rr_type r =? type) (v_list v).
(** src/knot/zone/node.c:243-270 *)
Definition same_in (a b : version) : bool :=
  forallb (fun r => negb (additional_needed (rr_type r)) ||
                    match rdataset b (rr_type r) with Some c => rr_ptr c =? rr_ptr r | None => false end) (v_list a).
Definition additionals_unchanged (old : option version) (new : version) : bool :=
  match old with
  | None => false
  | Some o => (v_rrs new =? v_rrs o) || (same_in o new && same_in new o)
  end.

(** src/knot/zone/adds_tree.c:29-32, src/libknot/dynarray.h:97-128: [Null] no structure was allocated, [Broken] growing
    the array failed (capacity and size are -1 from then on) *)
Inductive entry := Null | Broken | Arr (l : list Z) (deduplicated : bool).
Definition tree : Type := list (list Z * entry).

(** Look up, insert or replace, and delete in the sorted list (trie_get_try, trie_get_ins, trie_del) *)
Definition get (t : tree) (k : list Z) : option entry :=
  match find (fun p => match kcmp (fst p) k with Eq => true | _ => false end) t with Some p => Some (snd p) | None => None end.
Fixpoint set (t : tree) (k : list Z) (e : entry) : tree :=
  match t with
  | [] => [(k, e)]
  | (k', e') :: t' => match kcmp k k' with Lt => (k, e) :: t | Eq => (k, e) :: t' | Gt => (k', e') :: set t' k e end
  end.
Definition del (t : tree) (k : list Z) : tree :=
  filter (fun p => match kcmp (fst p) k with Eq => false | _ => true end) t.

(** src/libknot/dynarray.h:129-141: the last element takes the place of the removed one and is looked at next *)
Fixpoint dyn_remove (fuel : nat) (l : list Z) (x : Z) : list Z :=
  match fuel with
  | O => []
  | S fuel =>
    match l with
    | [] => []
    | a :: r =>
      if a =? x then match r with [] => [] | _ => dyn_remove fuel (last r 0 :: removelast r) x end
      else a :: dyn_remove fuel r x
    end
  end.

(** src/libknot/dynarray.h:149-183; addresses compare as numbers (as memcmp on a little-endian machine orders them is
    of no importance) *)
Fixpoint ins_sorted (x : Z) (l : list Z) : list Z :=
  match l with [] => [x] | a :: r => if x <=? a then x :: l else a :: ins_sorted x r end.
Definition sort (l : list Z) : list Z := fold_right ins_sorted [] l.
Fixpoint dedup (prev : Z) (l : list Z) : list Z :=
  match l with [] => [] | a :: r => if prev =? a then dedup a r else a :: dedup a r end.
Definition sort_dedup (l : list Z) : list Z :=
  match l with
  | _ :: _ :: _ => match sort l with a :: r => a :: dedup a r | [] => [] end
  | _ => l
  end.

(** src/knot/zone/adds_tree.c:34-49; freeing reads the structure of every entry *)
Definition tree_free (t : tree) : res unit :=
  if forallb (fun p => match snd p with Null => false | _ => true end) t then Ok tt else UB.

(** src/knot/zone/adds_tree.c:51-70: the names for which the callback is called, in order *)
Definition targets (v : version) (apex : name) : list name :=
  flat_map (fun r => if additional_needed (rr_type r) then filter (fun n => below n apex) (rr_names r) else []) (v_list v).

(** src/knot/zone/adds_tree.c:77-104 *)
Definition remove_node (t : tree) (k : list Z) (x : Z) : tree :=
  match get t k with
  | None => t
  | Some Null => del t k
  | Some Broken => t
  | Some (Arr l d) =>
    match dyn_remove (length l) l x with
    | [] => del t k
    | l => set t k (Arr l d)
    end
  end.

(** Which allocations succeed: [a_new] for the structure of a key, [a_grow] for a larger array *)
Record alloc := mkalloc { a_new : list Z -> bool; a_grow : list Z -> Z -> bool }.
(** src/knot/zone/adds_tree.c:106-125; the tree is there also after a failure. The first elements
    are in the structure itself; the model asks the oracle at every later addition, the array of the code grows only at
    some sizes. *)
Definition add_node (al : alloc) (t : tree) (k : list Z) (x : Z) : Z * tree :=
  let e := match get t k with Some e => e | None => Null end in
  match e with
  | Null => if a_new al k then (KNOT_EOK, set t k (Arr [x] false))
            else (KNOT_ENOMEM, set t k Null)
  | Broken => (KNOT_EOK, t)
  | Arr l _ => (KNOT_EOK, set t k (if a_grow al k x then Arr (l ++ [x]) false else Broken))
  end.
Fixpoint add_all (al : alloc) (t : tree) (ns : list name) (x : Z) : Z * tree :=
  match ns with
  | [] => (KNOT_EOK, t)
  | n :: ns =>
    let (ret, t) := add_node al t (key n) x in
    if ret =? KNOT_EOK then add_all al t ns x else (ret, t)
  end.
Definition exists_ (v : option version) : bool := match v with Some v => negb (v_deleted v) | None => false end.

(** src/knot/zone/adds_tree.c:127-153 *)
Definition update_node (al : alloc) (t : tree) (apex : name) (x : Z) (old : option version) (new : version) : Z * tree :=
  if additionals_unchanged old new then (KNOT_EOK, t)
  else
    let t := match old with
             | Some o => if negb (v_deleted o) then fold_left (fun t n => remove_node t (key n) x) (targets o apex) t else t
             | None => t
             end in
    if negb (v_deleted new) then add_all al t (targets new apex) x else (KNOT_EOK, t).

(** src/knot/zone/adds_tree.c:155-173; the hash of names is given when NSEC3 is enabled *)
Definition update_nsec3 (al : alloc) (t : tree) (h : option (name -> name)) (x : Z) (old : option version) (new : version) : Z * tree :=
  match h with
  | None => (KNOT_EOK, t)
  | Some h =>
    let oldex := exists_ old in
    let newex := exists_ (Some new) in
    let addn := negb oldex && newex in
    let remn := oldex && negb newex in
    if negb addn && negb remn then (KNOT_EOK, t)
    else
      let nsec3_name := h (if addn then v_owner new else match old with Some o => v_owner o | None => [] end) in
      if addn then add_node al t (key nsec3_name) x
      else (KNOT_EOK, remove_node t (key nsec3_name) x)
  end.

(** The loop of both functions below *)
Fixpoint update_list (al : alloc) (t : tree) (apex : name) (h : option (name -> name)) (l : list (Z * option version * version)) : Z * tree :=
  match l with
  | [] => (KNOT_EOK, t)
  | (x, old, new) :: l =>
    let (ret, t) := update_node al t apex x old new in
    if negb (ret =? KNOT_EOK) then (ret, t) else
    let (ret, t) := update_nsec3 al t h x old new in
    if negb (ret =? KNOT_EOK) then (ret, t) else
    update_list al t apex h l
  end.

(** A zone: its apex, the hash when NSEC3 is used, the addresses of its nodes and the halves it reads *)
Record contents := mkcont { c_apex : name; c_nsec3 : option (name -> name); c_nodes : list Z; c_at : Z -> version }.

(** src/knot/zone/adds_tree.c:175-201; after a failure the tree is freed *)
Definition from_zone (al : alloc) (c : contents) : res tree :=
  let (ret, t) := update_list al [] (c_apex c) (c_nsec3 c) (map (fun x => (x, None, c_at c x)) (c_nodes c)) in
  if ret =? KNOT_EOK then Ok t else let* _ := tree_free t in Err ret.
(** src/knot/zone/adds_tree.c:203-218 *)
Definition update_from_binodes (al : alloc) (t : tree) (ptrs : list Z) (old new : contents) : Z * tree :=
  update_list al t (c_apex new) (c_nsec3 new) (map (fun x => (x, Some (c_at old x), c_at new x)) ptrs).

(** src/knot/zone/adds_tree.c:220-239: the nodes for which the callback is called, and the entry afterwards *)
Definition reverse_apply_nodes (e : entry) : list Z * entry :=
  match e with
  | Null => ([], Null)
  | Broken => ([], Broken)
  | Arr l d => let l := if d then l else sort_dedup l in (l, Arr l true)
  end.
(** src/knot/zone/adds_tree.c:241-253 *)
Definition reverse_apply (t : tree) (n : name) : list Z * tree :=
  match get t (key n) with
  | None => ([], t)
  | Some e => let (l, e) := reverse_apply_nodes e in (l, set t (key n) e)
  end.
(** src/knot/zone/adds_tree.c:255-267 *)
Fixpoint in_subtree (root k : list Z) : bool :=
  match root, k with
  | [], _ => true
  | a :: root, b :: k => (a =? b) && in_subtree root k
  | _, [] => false
  end.
(** src/knot/zone/adds_tree.c:269-301: the keys not above that of the name are passed over (trie_it_get_leq and
    trie_it_next, or the beginning), then those in its subtree are served until the first that is not *)
Fixpoint walk (t : tree) (root : list Z) : list Z * tree :=
  match t with
  | [] => ([], [])
  | (k, e) :: t' =>
    if in_subtree root k then
      let (l, e) := reverse_apply_nodes e in
      let (l', t') := walk t' root in (l ++ l', (k, e) :: t')
    else ([], t)
  end.
Fixpoint apply_subtree (t : tree) (root : list Z) : list Z * tree :=
  match t with
  | [] => ([], [])
  | (k, e) :: t' =>
    match kcmp k root with
    | Gt => walk t root
    | _ => let (l, t') := apply_subtree t' root in (l, (k, e) :: t')
    end
  end.
(** src/libknot/dname.h:215-218: the leftmost label is "*" *)
Definition is_wildcard (n : name) : bool := match n with [42] :: _ => true | _ => false end.
(** src/knot/zone/adds_tree.c:303-320 *)
Fixpoint apply_multi (t : tree) (owners : list name) : list Z * tree :=
  match owners with
  | [] => ([], t)
  | o :: owners =>
    let (l, t) := if is_wildcard o then apply_subtree t (key (tl o)) else reverse_apply t o in
    let (l', t) := apply_multi t owners in (l ++ l', t)
  end.

(** src/knot/zone/adjust.c:571-630, only what concerns the index: the index is updated or built again, then the nodes
    that mention a touched name are looked up. After a failure the index is freed
    (src/knot/updates/zone-update.c:928-933). The lookup for the tree of NSEC3 nodes is the same function. *)
Definition incremental (al : alloc) (t : option tree) (nsec3change : bool) (old new : contents) (ptrs : list Z) : res (list Z * tree) :=
  let* t := match t with
            | Some t =>
              if negb nsec3change then
                let (ret, t) := update_from_binodes al t ptrs old new in
                if ret =? KNOT_EOK then Ok t else let* _ := tree_free t in Err ret
              else let* _ := tree_free t in from_zone al new
            | None => from_zone al new
            end in
  Ok (apply_multi t (map (fun x => v_owner (c_at new x)) ptrs)).

(** src/knot/zone/contents.c:295-344, 423-447: the node of a name, or the wildcard that covers it. [ex] tells which names
    have a node. *)
Fixpoint encloser (ex : name -> bool) (n : name) : option name :=
  if ex n then Some n else match n with [] => None | _ :: n => encloser ex n end.
Definition node_or_wildcard (ex : name -> bool) (n : name) : option name :=
  if ex n then Some n
  else match encloser ex n with
       | Some e => if ex ([42] :: e) then Some ([42] :: e) else None
       | None => None
       end.
