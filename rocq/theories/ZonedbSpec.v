(** C72: which zone a query is for. *)
From Verif Require Import Base AddsModel AddsSpec ZonedbModel.

(** What is served after the changes: the zone of a name is the one inserted last, if it was not deleted since. *)
Inductive served : list change -> name -> Z -> Prop :=
| s_insert : forall cs n z, served (cs ++ [Insert n z]) n z
| s_other : forall cs c n z, served cs n z -> (match c with Insert m _ => m | Delete m => m end) <> n -> served (cs ++ [c]) n z.

(** [closest cs q n z]: of the served zones at [q] or above it, the one with the most labels is [n], with the zone [z]. *)
Definition at_or_above (q n : name) : Prop := exists p, q = p ++ n.
Definition closest (cs : list change) (q n : name) (z : Z) : Prop :=
  at_or_above q n /\ served cs n z /\ forall n' z', at_or_above q n' -> served cs n' z' -> (length n' <= length n)%nat.
Definition none_above (cs : list change) (q : name) : Prop := forall n z, at_or_above q n -> ~ served cs n z.

Definition change_name (c : change) : name := match c with Insert m _ => m | Delete m => m end.
(** No label has a zero octet: in keys the labels end with one (see c72_zero_refuted). *)
Definition null_free_changes (cs : list change) : Prop := Forall (fun c => null_free_name (change_name c)) cs.
