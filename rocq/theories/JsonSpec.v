(** JSON (RFC 8259): documents and how they are read. Texts are octets; that they are UTF-8 is not checked, and of the
    escapes \uXXXX those below 128 are read. Numbers are integers. *)
From Verif Require Import Base JsonModel.

Inductive doc :=
| DNull
| DBool (b : bool)
| DNum (n : Z)
| DStr (s : list Z)
| DObj (l : list (list Z * doc))
| DList (l : list doc).

(** ** Tokens *)
Inductive token := TObj | TObjEnd | TList | TListEnd | TComma | TColon | TStr (s : list Z) | TWord (w : list Z).
Definition is_ws (c : Z) : bool := (c =? 32) || (c =? 9) || (c =? 10) || (c =? 13).
Definition wordchar (c : Z) : bool :=
  ((48 <=? c) && (c <=? 57)) || ((97 <=? c) && (c <=? 122)) || ((65 <=? c) && (c <=? 90)) || (c =? 45) || (c =? 43) || (c =? 46).
Inductive st := Idle | Word (acc : list Z) | Str (acc : list Z) | Esc (acc : list Z) | Uni (acc : list Z) (n : nat) (code : Z).
Definition idle (c : Z) : option (list token * st) :=
  if is_ws c then Some ([], Idle)
  else if c =? 123 then Some ([TObj], Idle) else if c =? 125 then Some ([TObjEnd], Idle)
  else if c =? 91 then Some ([TList], Idle) else if c =? 93 then Some ([TListEnd], Idle)
  else if c =? 44 then Some ([TComma], Idle) else if c =? 58 then Some ([TColon], Idle)
  else if c =? 34 then Some ([], Str [])
  else if wordchar c then Some ([], Word [c])
  else None.
Definition hexval (c : Z) : option Z :=
  if (48 <=? c) && (c <=? 57) then Some (c - 48) else if (97 <=? c) && (c <=? 102) then Some (c - 87)
  else if (65 <=? c) && (c <=? 70) then Some (c - 55) else None.
Definition unesc (c : Z) : option Z :=
  if (c =? 34) || (c =? 92) || (c =? 47) then Some c
  else if c =? 98 then Some 8 else if c =? 102 then Some 12 else if c =? 110 then Some 10 else if c =? 114 then Some 13
  else if c =? 116 then Some 9 else None.
(** One octet: the tokens completed and the next state *)
Definition step (s : st) (c : Z) : option (list token * st) :=
  match s with
  | Idle => idle c
  | Word acc => if wordchar c then Some ([], Word (acc ++ [c]))
                else match idle c with Some (ts, s) => Some (TWord acc :: ts, s) | None => None end
  | Str acc => if c =? 34 then Some ([TStr acc], Idle) else if c =? 92 then Some ([], Esc acc)
               else if c <? 32 then None else Some ([], Str (acc ++ [c]))
  | Esc acc => if c =? 117 then Some ([], Uni acc 3 0)
               else match unesc c with Some b => Some ([], Str (acc ++ [b])) | None => None end
  | Uni acc n code =>
    match hexval c with
    | None => None
    | Some v =>
      let code := 16 * code + v in
      match n with
      | S n => Some ([], Uni acc n code)
      | O => if code <? 128 then Some ([], Str (acc ++ [code])) else None
      end
    end
  end.
Definition omap (ts : list token) (o : option (list token)) : option (list token) := match o with Some l => Some (ts ++ l) | None => None end.
Fixpoint lex (s : st) (l : list Z) : option (list token) :=
  match l with
  | [] => match s with Idle => Some [] | Word acc => Some [TWord acc] | _ => None end
  | c :: l => match step s c with Some (ts, s) => omap ts (lex s l) | None => None end
  end.

(** ** Words: literals, and integers without needless zeros *)
Fixpoint dec (acc : Z) (l : list Z) : option Z :=
  match l with [] => Some acc | c :: l => if (48 <=? c) && (c <=? 57) then dec (10 * acc + (c - 48)) l else None end.
Definition nat_of (l : list Z) : option Z :=
  match l with [] => None | c :: r => if (c =? 48) && negb (match r with [] => true | _ => false end) then None else dec 0 l end.
Definition word (w : list Z) : option doc :=
  if list_eq_dec Z.eq_dec w [110; 117; 108; 108] then Some DNull
  else if list_eq_dec Z.eq_dec w [116; 114; 117; 101] then Some (DBool true)
  else if list_eq_dec Z.eq_dec w [102; 97; 108; 115; 101] then Some (DBool false)
  else match w with
       | 45 :: r => match nat_of r with Some n => Some (DNum (- n)) | None => None end
       | _ => match nat_of w with Some n => Some (DNum n) | None => None end
       end.

(** ** Values *)
Fixpoint value (f : nat) (ts : list token) : option (doc * list token) :=
  match f with
  | O => None
  | S f =>
    match ts with
    | TWord w :: r => match word w with Some d => Some (d, r) | None => None end
    | TStr s :: r => Some (DStr s, r)
    | TList :: TListEnd :: r => Some (DList [], r)
    | TList :: r => match elements f r with Some (l, r) => Some (DList l, r) | None => None end
    | TObj :: TObjEnd :: r => Some (DObj [], r)
    | TObj :: r => match members f r with Some (l, r) => Some (DObj l, r) | None => None end
    | _ => None
    end
  end
with elements (f : nat) (ts : list token) : option (list doc * list token) :=
  match f with
  | O => None
  | S f =>
    match value f ts with
    | Some (d, TComma :: r) => match elements f r with Some (l, r) => Some (d :: l, r) | None => None end
    | Some (d, TListEnd :: r) => Some ([d], r)
    | _ => None
    end
  end
with members (f : nat) (ts : list token) : option (list (list Z * doc) * list token) :=
  match f with
  | O => None
  | S f =>
    match ts with
    | TStr k :: TColon :: r =>
      match value f r with
      | Some (d, TComma :: r) => match members f r with Some (l, r) => Some ((k, d) :: l, r) | None => None end
      | Some (d, TObjEnd :: r) => Some ([(k, d)], r)
      | _ => None
      end
    | _ => None
    end
  end.
Definition read (text : list Z) : option doc :=
  match lex Idle text with
  | Some ts => match value (2 * length ts) ts with Some (d, []) => Some d | _ => None end
  | None => None
  end.

(** ** Which calls write a document. [h] bounds the nesting of blocks. *)
(** Strings without control characters; zero octets are allowed where the length is given *)
Definition plain (s : list Z) : Prop := Forall (fun c => 32 <= c) s.
Definition plain0 (s : list Z) : Prop := Forall (fun c => 32 <= c \/ c = 0) s.
Inductive writes : nat -> option (list Z) -> doc -> list call -> Prop :=
| w_null : forall h k, writes h k DNull [CNull k]
| w_bool : forall h k b, writes h k (DBool b) [CBool k b]
| w_num : forall h k n, - 2 ^ 31 <= n < 2 ^ 64 -> writes h k (DNum n) [CNum k n]
| w_str : forall h k s, plain s -> writes h k (DStr s) [CStr k s]
| w_str_len : forall h k s, plain0 s -> writes h k (DStr s) [CStrLen k s true]
| w_list : forall h k l cs, writes_list h l cs -> writes (S h) k (DList l) (CList k :: cs ++ [CEnd])
| w_obj : forall h k l cs, writes_obj h l cs -> writes (S h) k (DObj l) (CObject k :: cs ++ [CEnd])
with writes_list : nat -> list doc -> list call -> Prop :=
| wl_nil : forall h, writes_list h [] []
| wl_cons : forall h d l cs cs', writes h None d cs -> writes_list h l cs' -> writes_list h (d :: l) (cs ++ cs')
with writes_obj : nat -> list (list Z * doc) -> list call -> Prop :=
| wo_nil : forall h, writes_obj h [] []
| wo_cons : forall h k d l cs cs', plain k -> k <> [] -> writes h (Some k) d cs -> writes_obj h l cs' -> writes_obj h ((k, d) :: l) (cs ++ cs').
