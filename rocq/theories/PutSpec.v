(** What it means to fill a message by a history of calls, independently of the code. *)
From Verif Require Import Base DnameModel DnameSpec RrwireModel RrwireSpec ComprSpec ComprModel PutModel.

(** An RRset: the records are lists of pieces. *)
Record rrs := mkrrs { x_owner : list label; x_type : Z; x_class : Z; x_ttl : Z; x_data : list (list piece) }.

(** A call; [ptr] is the address of the records, the rest as in the interface. *)
Inductive call : Type :=
| CQuestion (q : list label) (qclass qtype : Z)
| CBegin (section : Z)
| CReserve (size : Z)
| CReclaim (size : Z)
| CPut (al1 al2 : bool) (hint : Z) (x : rrs) (ptr rotate : Z) (flags : pflags).
Definition to_op (c : call) : op :=
  match c with
  | CQuestion q c t => OQuestion (wire q) c t
  | CBegin s => OBegin s
  | CReserve n => OReserve n
  | CReclaim n => OReclaim n
  | CPut al1 al2 h x ptr rot f => OPut al1 al2 h (mkrrset (wire (x_owner x)) (x_type x) (x_class x) (x_ttl x) (map flat (x_data x))) ptr rot f
  end.

(** The message that was asked for: the question, the current section, the RRsets which were put, and
    whether the last attempt to put an RRset failed. *)
Record item := mkitem { i_section : Z; i_rrs : rrs; i_ptr : Z; i_rotate : Z; i_flags : pflags }.
Record msg := mkmsg { m_question : option (list label * Z * Z); m_section : Z; m_items : list item; m_broken : bool }.
Definition same_set (type ptr : Z) (i : item) : bool := (x_type (i_rrs i) =? type) && (i_ptr i =? ptr).

(** The effect of a call that returned [ret]. A call with an error puts nothing; a duplicate is not put
    again if that was asked for. *)
Definition effect (c : call) (ret : Z) (m : msg) : msg :=
  match c with
  | CQuestion q cl t => if ret =? KNOT_EOK then mkmsg (Some (q, cl, t)) (m_section m) (m_items m) (m_broken m) else m
  | CBegin s => if ret =? KNOT_EOK then mkmsg (m_question m) s (m_items m) (m_broken m) else m
  | CReserve _ | CReclaim _ => m
  | CPut _ _ _ x ptr rot f =>
    if ret =? KNOT_EOK then
      if (f_checkdup f && existsb (same_set (x_type x) ptr) (m_items m)) || (zlen (x_data x) =? 0) then m
      else mkmsg (m_question m) (m_section m) (m_items m ++ [mkitem (m_section m) x ptr rot f]) false
    else if ret =? KNOT_ENOMEM then m
    else mkmsg (m_question m) (m_section m) (m_items m) true
  end.

(** the records of an RRset in the order in which they are put: the first [rotate] ones go last *)
Definition in_order (rotate : Z) (l : list (list piece)) : list (list piece) :=
  let k := Z.to_nat (if zlen l =? 0 then 0 else rotate mod zlen l) in skipn k l ++ firstn k l.

(** the records of a list of RRsets, each with its RRset *)
Definition records_of (l : list item) : list (item * list piece) :=
  concat (map (fun i => map (fun d => (i, d)) (in_order (i_rotate i) (x_data (i_rrs i)))) l).
Definition in_section (k : Z) (l : list item) : list item := filter (fun i => i_section i =? k) l.
Definition is_record (x : item * list piece) (r : record) : Prop :=
  let rs := i_rrs (fst x) in
  sent (f_origttl (i_flags (fst x))) (f_soaminttl (i_flags (fst x))) (x_owner rs) (x_type rs) (x_class rs) (x_ttl rs) (snd x) r.

(** The message [m] is in the first [size] octets of [w]: the counts of the header, the question, and the
    records of the three sections one after another. *)
Definition message_at (w : list Z) (m : msg) (size : Z) : Prop :=
  size <= zlen w /\
  (exists qend rs,
    match m_question m with
    | None => u16_at w 4 0 /\ qend = 12
    | Some (q, cl, t) => u16_at w 4 1 /\ qend = 12 + name_size q + 4 /\ encodes w false 12 q (name_size q) /\
                         u16_at w (qend - 4) t /\ u16_at w (qend - 2) cl
    end /\
    records_at w qend rs size /\
    Forall2 is_record (records_of (in_section 0 (m_items m) ++ in_section 1 (m_items m) ++ in_section 2 (m_items m))) rs) /\
  forall k, 0 <= k <= 2 -> u16_at w (6 + 2 * k) (zlen (records_of (in_section k (m_items m)))).

(** ** Which calls are allowed *)
Definition rrs_ok (f : pflags) (x : rrs) : Prop :=
  legal_name (x_owner x) /\ 0 <= x_type x < 65536 /\ 0 <= x_class x < 65536 /\ 0 <= x_ttl x < 2 ^ 32 /\
  zlen (x_data x) <= 65535 /\ Forall (rdata_ok (f_origttl f) (f_soaminttl f) (x_type x)) (x_data x).

(** A compression hint: none; the position of QNAME if the owner is QNAME; or a hint stored for an RRset
    put before (number 0 is for its owner, [i]+1 for the names in its [i]-th record), if that is the
    owner. The owner may be the root, then the hint is not used. *)
Definition hint_allowed (p : pkt) (m : msg) (hint : Z) (owner : list label) : Prop :=
  hint = 0 \/ owner = [] \/ m_question m = None \/
  (hint = 12 /\ exists q cl t, m_question m = Some (q, cl, t) /\ lower_name owner = lower_name q) \/
  (exists k i hints id, nth_error (m_items m) k = Some i /\ nth_error (p_info p) k = Some hints /\ zget hints id = Some hint /\
    ((id = 0 /\ lower_name (x_owner (i_rrs i)) = lower_name owner) \/
     (1 <= id /\ forall d l, nth_error (x_data (i_rrs i)) (Z.to_nat (id - 1)) = Some d -> In (PName l) d -> lower_name l = lower_name owner))).

(** The calls which may be made: the question comes first and before any space is reserved; after
    a failure to put an RRset, the next one has the root as its owner (as OPT), unless there is no question. *)
Definition allowed_call (p : pkt) (m : msg) (c : call) : Prop :=
  match c with
  | CQuestion q cl t => legal_name q /\ 0 <= cl < 65536 /\ 0 <= t < 65536 /\
      m_question m = None /\ m_section m = 0 /\ m_items m = [] /\ p_reserved p = 0
  | CBegin s => 0 <= s <= 2
  | CReserve n | CReclaim n => 0 <= n < 65536
  | CPut _ _ h x _ rot f => rrs_ok f x /\ 0 <= rot < 65536 /\ 0 <= h < 65536 /\ hint_allowed p m h (x_owner x) /\
      (m_broken m = true -> x_owner x = [] \/ m_question m = None)
  end.

(** A history with its return codes *)
Inductive history : pkt -> msg -> list call -> list Z -> pkt -> msg -> Prop :=
| h_nil : forall p m, history p m [] [] p m
| h_cons : forall p m c ret p1 cs rets p2 m2, allowed_call p m c -> do_op (to_op c) p = Ok (ret, p1) ->
    history p1 (effect c ret m) cs rets p2 m2 -> history p m (c :: cs) (ret :: rets) p2 m2.

(** ** The start of a message *)
Definition empty_msg (q : option (list label * Z * Z)) : msg := mkmsg q 0 [] false.
(** A query whose question was read: its wire, and the size of QNAME or 0 if there is no question *)
Definition query_holds (qwire : list Z) (q : option (list label * Z * Z)) (qsize : Z) : Prop :=
  match q with
  | None => qsize = 0 /\ 12 <= zlen qwire
  | Some (q, cl, t) => legal_name q /\ 0 <= cl < 65536 /\ 0 <= t < 65536 /\ qsize = name_size q /\ u16_at qwire 4 1 /\
      12 + name_size q + 4 <= zlen qwire /\ encodes qwire false 12 q (name_size q) /\ u16_at qwire (12 + name_size q) t /\ u16_at qwire (12 + name_size q + 2) cl
  end.
Definition question_size (q : option (list label * Z * Z)) : Z := match q with None => 0 | Some (q, _, _) => name_size q + 4 end.

(** What is read from a message: records one after another. *)
Inductive reads (m : list Z) (canonical : bool) : Z -> list rr -> Z -> Prop :=
| rd_nil : forall pos, reads m canonical pos [] pos
| rd_cons : forall pos x mid xs e, rr_from_wire m pos canonical true true = Ok (KNOT_EOK, mid, SFilled x) ->
    reads m canonical mid xs e -> reads m canonical pos (x :: xs) e.
(** RDATA that can be read: not empty, or empty where that is allowed *)
Definition readable (rclass type : Z) (ps : list piece) : Prop :=
  0 < zlen (flat ps) <= 65535 \/ (ps = [] /\ empty_ok rclass type).
(** A record in the canonical form, as it is read *)
Definition canonical_of (x : item * list piece) (y : rr) : Prop :=
  let rs := i_rrs (fst x) in
  exists ttl, sent_ttl (f_origttl (i_flags (fst x))) (f_soaminttl (i_flags (fst x))) (x_type rs) (x_ttl rs) (flat (snd x)) ttl /\
    let c := canonical_record (mkrecord (x_owner rs) (x_type rs) (x_class rs) ttl (snd x)) in
    y = mkrr (wire (r_owner c)) (r_type c) (r_class c) (r_ttl c) (flat (r_data c)).

(** Names written one after another, as compress_rdata_dname of rrset-wire.c:360-393 does but without hints;
    returns their positions *)
Fixpoint put_names (l : list (list Z)) : st -> out (list Z) :=
  match l with
  | [] => ret []
  | d :: l =>
    do* s := get in
    do* n := compr_put_dname d (s_dst s) (dname_max (s_avail s)) true in
    do* _ := move n in
    do* ps := put_names l in
    ret (s_dst s :: ps)
  end.
(** The name at [pos] is [ls] but for the case of letters; pointers go strictly backwards (this is a part
    of [encodes]). *)
Definition name_back (m : list Z) (ls : list label) (pos : Z) : Prop :=
  exists ls' n, encodes m true pos ls' n /\ legal_name ls' /\ lower_name ls' = lower_name ls /\ n <= name_size ls /\ pos + n <= zlen m.
