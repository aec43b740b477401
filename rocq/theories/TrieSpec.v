(** What the trie means: keys are byte strings, ordered lexicographically; the content is a finite map. *)
From Verif Require Import Base.

(** a comes before b: a is a proper prefix of b, or at the first difference a has the smaller byte *)
Definition klt (a b : list Z) : Prop :=
  exists p, (exists y t, a = p /\ b = p ++ y :: t) \/
            (exists x y s t, a = p ++ x :: s /\ b = p ++ y :: t /\ x < y).

(** Keys of the API: bytes, and a length that fits into the 31 bits that a key has for it. *)
Definition key_ok (k : list Z) : Prop := bytes k /\ zlen k < 2 ^ 31.

Definition kmap := list Z -> option Z.
Definition key_eq_dec : forall a b : list Z, {a = b} + {a <> b} := list_eq_dec Z.eq_dec.
Definition kempty : kmap := fun _ => None.
Definition kset (m : kmap) (k : list Z) (v : option Z) : kmap :=
  fun x => if key_eq_dec x k then v else m x.
(** q is a proper prefix of k *)
Definition pprefix (q k : list Z) : Prop := exists y t, k = q ++ y :: t.
