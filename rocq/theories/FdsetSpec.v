(** What a set of descriptors should do, in terms of the descriptors: what is known of each of them, and how the
    operations change it. *)
From Verif Require Import Base FdsetModel.

(** What was registered for a descriptor *)
Record entry := mkentry { e_events : Z; e_ctx : Z; e_ctx2 : Z; e_deadline : option Z }.
Definition world : Type := Z -> option entry.
Definition nothing : world := fun _ => None.
Definition upd (w : world) (fd : Z) (v : option entry) : world := fun x => if x =? fd then v else w x.
Definition deadline (now interval : Z) : option Z := if interval <? 0 then None else Some (now + interval).

(** The entry at an index, as the functions of the set tell it (the events as the kernel has them) *)
Definition get (s : fdset) (i : nat) : option (Z * entry) :=
  match nth_error (slots s) i with
  | None => None
  | Some x => match kget (ker s) (s_fd x) with
              | None => None
              | Some (_, ev) => Some (s_fd x, mkentry ev (s_ctx x) (s_ctx2 x)
                                                (if s_timeout x >? 0 then Some (s_timeout x) else None))
              end
  end.
(** The set holds the descriptors of [w], each at one index, and nothing else. *)
Definition holds (s : fdset) (w : world) : Prop :=
  (forall fd e, w fd = Some e <-> exists i, get s i = Some (fd, e)) /\
  (forall i, (i < count s)%nat -> exists fd e, get s i = Some (fd, e)) /\
  (forall i j fd e e', get s i = Some (fd, e) -> get s j = Some (fd, e') -> i = j).

(** The descriptor has expired. *)
Definition expired (now : Z) (e : entry) : bool := match e_deadline e with Some t => t <=? now | None => false end.

(** The effect of what the server does on an event of [fd] *)
Definition act_effect (now fd : Z) (w : world) (a : act) : world :=
  match a with
  | AWatch i => match w fd with
                | Some e => upd w fd (Some (mkentry (e_events e) (e_ctx e) (e_ctx2 e) (deadline now i)))
                | None => w
                end
  | ACtx2 v => match w fd with
               | Some e => upd w fd (Some (mkentry (e_events e) (e_ctx e) v (e_deadline e)))
               | None => w
               end
  | AAdd f ev ctx i _ _ => upd w f (Some (mkentry ev ctx 0 (deadline now i)))
  end.
Definition event_effect (now : Z) (h : handler) (w : world) (d : delivery) : world :=
  fold_left (act_effect now (d_fd d)) (fst (h d)) w.
Definition drop (w : world) (l : list Z) : world := fun fd => if existsb (Z.eqb fd) l then None else w fd.
(** The events of a round: those of the descriptors that are ready, in the order of the kernel and each with what was
    registered for it, but for the indices below the offset *)
Definition due (at_ : nat -> option Z) (w : world) (offset : nat) (ready : list (Z * Z)) (l : list delivery) : Prop :=
  (exists chosen, map (fun d => (d_fd d, d_events d)) l = filter chosen ready /\
     forall fd r, In (fd, r) ready -> (chosen (fd, r) = true <-> exists i, at_ i = Some fd /\ (offset <= i)%nat)) /\
  Forall (fun d => at_ (d_idx d) = Some (d_fd d) /\
            exists e, w (d_fd d) = Some e /\ d_ctx d = e_ctx e /\ d_ctx2 d = e_ctx2 e) l.
(** What is known after a round that delivered [l] *)
Definition round_effect (now : Z) (h : handler) (l : list delivery) (w : world) : world :=
  drop (fold_left (event_effect now h) l w) (map d_fd (filter (fun d => snd (h d)) l)).

(** The descriptor at an index *)
Definition fd_at (s : fdset) (i : nat) : option Z := option_map s_fd (nth_error (slots s) i).

(** The effect of an operation on what is known, and what it shows *)
Definition effect (s : fdset) (w : world) (o : op) (w' : world) (v : seen) : Prop :=
  match o, v with
  | OAdd fd ev ctx _ _, SCode r =>
      (0 <= r /\ (forall x, w' x = upd w fd (Some (mkentry ev ctx 0 None)) x)) \/ (r < 0 /\ forall x, w' x = w x)
  | ORemove i, SCode r =>
      match fd_at s i with
      | Some fd => r = KNOT_EOK /\ forall x, w' x = upd w fd None x
      | None => r = KNOT_EINVAL /\ forall x, w' x = w x
      end
  | OWatch i interval now, SCode r =>
      match fd_at s i with
      | Some fd => r = KNOT_EOK /\ exists e, w fd = Some e /\
                     forall x, w' x = upd w fd (Some (mkentry (e_events e) (e_ctx e) (e_ctx2 e) (deadline now interval))) x
      | None => r = KNOT_EINVAL /\ forall x, w' x = w x
      end
  | OCtx2 i c, SCode _ =>
      match fd_at s i with
      | Some fd => exists e, w fd = Some e /\
                     forall x, w' x = upd w fd (Some (mkentry (e_events e) (e_ctx e) c (e_deadline e))) x
      | None => False
      end
  | OSweep now cb, SCalls l =>
      NoDup l /\ (forall fd, In fd l <-> exists e, w fd = Some e /\ expired now e = true) /\
      (forall fd, w' fd = match w fd with
                          | Some e => if expired now e && cb fd then None else Some e
                          | None => None
                          end)
  | ORound now offset ready h, SEvents l =>
      due (fd_at s) w offset ready l /\ forall x, w' x = round_effect now h l w x
  | _, _ => False
  end.
(** The descriptors an operation closes *)
Definition closes (s : fdset) (o : op) (v : seen) : list Z :=
  match o, v with
  | ORemove i, _ => match fd_at s i with Some fd => [fd] | None => [] end
  | OSweep _ cb, SCalls l => filter cb l
  | ORound _ _ _ h, SEvents l => map d_fd (filter (fun d => snd (h d)) l)
  | _, _ => []
  end.

(** The user keeps to the rules: a descriptor to be added is an open one, thus not in the set, with events the kernel
    knows; indices are those of the set; clocks are positive. The kernel has room for what is added, and reports no
    descriptor twice. *)
Definition new_ok (w : world) (fd ev : Z) : Prop := 0 <= fd /\ w fd = None /\ ev <> FDSET_REMOVE_FLAG.
Definition adds (h : handler) (d : delivery) : list Z :=
  flat_map (fun a => match a with AAdd fd _ _ _ _ _ => [fd] | _ => [] end) (fst (h d)).
Definition act_ok (w : world) (a : act) : Prop :=
  match a with AAdd fd ev _ _ mem room => new_ok w fd ev /\ mem = true /\ room = true | _ => True end.
Definition op_ok (s : fdset) (w : world) (o : op) : Prop :=
  match o with
  | OAdd fd ev _ _ room => new_ok w fd ev /\ room = true
  | ORemove _ => True
  | OWatch _ _ now => 0 < now
  | OCtx2 i _ => (i < count s)%nat
  | OSweep now _ => True
  | ORound now offset ready h =>
      0 < now /\ NoDup (map fst ready) /\
      forall l, due (fd_at s) w offset ready l -> NoDup (flat_map (adds h) l) /\ Forall (fun d => Forall (act_ok w) (fst (h d))) l
  end.

(** A history of operations from an empty set: each keeps to the rules and has the effect it should have on what is
    known. *)
Inductive history (n : nat) : list op -> fdset -> world -> Prop :=
| hist_nil : history n [] (fdset_init n) nothing
| hist_snoc l s w o s' v w' : history n l s w -> op_ok s w o -> step o s = Ok (s', v) -> effect s w o w' v ->
    history n (l ++ [o]) s' w'.
