(** The writer of JSON, src/contrib/json.c.

    Simplifications. The stream is the list of the octets written to it; writing does not fail. The counts of elements do
    not overflow. jsonw_double is not modelled; jsonw_hex is jsonw_str with a text of hexadecimal digits. *)
From Verif Require Import Base TrafoModel.

(** src/contrib/json.c:25 *)
Definition MAX_DEPTH : Z := 16.
(** src/contrib/json.c:27-31 *)
Definition BLOCK_OBJECT : Z := 1.
Definition BLOCK_LIST : Z := 2.
(** src/contrib/json.c:33-52: what was written, the blocks in progress (type and count, the innermost first), and whether a
    new line is needed; the index of the top is [MAX_DEPTH] minus the number of blocks *)
Record jsonw := mkw { w_out : list Z; w_stack : list (Z * Z); w_wrap : bool }.

(** fprintf and fputc to the stream, src/contrib/json.c:82-115 *)
Definition put (w : jsonw) (t : list Z) : jsonw := mkw (w_out w ++ t) (w_stack w) (w_wrap w).
(** A C string: what is in front of the first zero (maxlen == SIZE_MAX, src/contrib/json.c:104) *)
Fixpoint cstr (l : list Z) : list Z := match l with c :: l => if c =? 0 then [] else c :: cstr l | [] => [] end.

(** src/contrib/json.c:56-67 *)
Definition start_block (w : jsonw) (type : Z) : res jsonw :=
  if MAX_DEPTH - zlen (w_stack w) <=? 0 then UB
  else Ok (mkw (w_out w) ((type, 0) :: w_stack w) (w_wrap w)).
(** src/contrib/json.c:77-90 *)
Definition wrap (ind : list Z) (w : jsonw) : jsonw :=
  if negb (w_wrap w) then mkw (w_out w) (w_stack w) true
  else put w (10 :: concat (repeat ind (length (w_stack w)))).

(** src/contrib/json.c:99-117: one octet *)
Definition esc (c : Z) : list Z :=
  if (c =? 92) || (c =? 34) then [92; c]
  else if c =? 0 then [92; 117; 48; 48; 48; 48]
  else [c].
(** src/contrib/json.c:99-117: the loop *)
Definition escaped_print (s : list Z) (quote : bool) : list Z :=
  (if quote then [34] else []) ++ flat_map esc s ++ (if quote then [34] else []).

(** src/contrib/json.c:119-132 *)
Definition align_key (ind : list Z) (w : jsonw) (key : option (list Z)) : jsonw :=
  let w := match w_stack w with
           | (type, count) :: s => mkw (w_out w ++ if count =? 0 then [] else [44]) ((type, count + 1) :: s) (w_wrap w)
           | [] => w
           end in
  let w := wrap ind w in
  match key with
  | Some k => match cstr k with
              | [] => w
              | k => put w (escaped_print k true ++ [58; 32])
              end
  | None => w
  end.

(** src/contrib/json.c:134-148 *)
Definition jsonw_new : jsonw := mkw [] [] false.
(** src/contrib/json.c:150-160 *)
Definition jsonw_free (ind : list Z) (w : jsonw) : jsonw := wrap ind w.

(** The calls of the interface, src/contrib/json.h *)
Inductive call :=
| CNull (key : option (list Z))
| CObject (key : option (list Z))
| CList (key : option (list Z))
| CStr (key : option (list Z)) (value : list Z)
| CStrLen (key : option (list Z)) (value : list Z) (quote : bool)
| CNum (key : option (list Z)) (value : Z)
| CBool (key : option (list Z)) (value : bool)
| CEnd.
(** src/contrib/json.c:162-267: one call *)
Definition do_call (ind : list Z) (w : jsonw) (c : call) : res jsonw :=
  match c with
  | CNull k => Ok (put (align_key ind w k) [110; 117; 108; 108])                                  (* json.c:162-168 *)
  | CObject k => start_block (put (align_key ind w k) [123]) BLOCK_OBJECT                         (* json.c:170-177 *)
  | CList k => start_block (put (align_key ind w k) [91]) BLOCK_LIST                              (* json.c:179-186 *)
  | CStr k v => Ok (put (align_key ind w k) (escaped_print (cstr v) true))                        (* json.c:188-194 *)
  | CStrLen k v q => Ok (put (align_key ind w k) (escaped_print v q))                             (* json.c:196-202 *)
  | CNum k v => Ok (put (align_key ind w k) (print_dec v))                                        (* json.c:204-218 *)
  | CBool k v => Ok (put (align_key ind w k) (if v then [116; 114; 117; 101] else [102; 97; 108; 115; 101])) (* json.c:228-234 *)
  | CEnd =>                                                                                       (* json.c:247-267 *)
    match w_stack w with
    | [] => Ok w
    | (type, _) :: s =>
      let w := wrap ind (mkw (w_out w) s (w_wrap w)) in
      Ok (put w (if type =? BLOCK_OBJECT then [125] else if type =? BLOCK_LIST then [93] else []))
    end
  end.
(** The calls made by the callers, such as src/utils/common/exec.c:765-785, in their order *)
Fixpoint run (ind : list Z) (cs : list call) (w : jsonw) : res jsonw :=
  match cs with [] => Ok w | c :: cs => let* w := do_call ind w c in run ind cs w end.
