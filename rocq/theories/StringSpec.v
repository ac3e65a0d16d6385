(** Specification vocabulary for string.c. *)
From Verif Require Import Base StrBase StringModel.

(** the C string stored at the start of [m], all of [m] if there is no zero *)
Fixpoint text (m : bytes) : bytes :=
  match m with [] => [] | c :: m' => if c =? 0 then [] else c :: text m' end.
Definition no_nul (s : bytes) : Prop := Forall (fun c => c <> 0) s.

(** up to [n] characters of the source can be read: it ends before, or has that many *)
Definition readable (src : bytes) (n : Z) : Prop := In 0 src \/ n <= zlen src.
(** [dest'] is [dest] with the first [size] bytes replaced by a zero terminated
    text [s] *)
Definition holds_text (dest dest' : bytes) (size : Z) (s : bytes) : Prop :=
  zlen dest' = zlen dest /\ zlen s < size /\
  (exists r, dest' = s ++ 0 :: r) /\
  forall i, size <= i -> zget dest' i = zget dest i.

(** [Words s ws]: [ws] are the maximal blank free pieces of [s] *)
Inductive Words : bytes -> list bytes -> Prop :=
| Words_nil : forall b, Forall (fun c => isblank c = true) b -> Words b []
| Words_cons : forall b w r ws,
    Forall (fun c => isblank c = true) b -> w <> [] -> Forall (fun c => isblank c = false) w ->
    (forall c r', r = c :: r' -> isblank c = true) -> Words r ws -> Words (b ++ w ++ r) (w :: ws).

(** [t] is [s] without white space at both ends *)
Definition trimmed (s t : bytes) : Prop :=
  exists a b, s = a ++ t ++ b /\ Forall (fun c => isspace c = true) a /\ Forall (fun c => isspace c = true) b /\
    (forall c r, t = c :: r -> isspace c = false) /\ (forall r c, t = r ++ [c] -> isspace c = false).

(** ** Hexadecimal digits *)
Definition nibble (c : Z) : option Z :=
  if (48 <=? c) && (c <=? 57) then Some (c - 48)
  else if (97 <=? c) && (c <=? 102) then Some (c - 87)
  else if (65 <=? c) && (c <=? 70) then Some (c - 55)
  else None.
(** the bytes a text of hexadecimal digits stands for *)
Inductive HexText : bytes -> bytes -> Prop :=
| Hex_nil : HexText [] []
| Hex_cons : forall a b h l t bs, nibble a = Some h -> nibble b = Some l -> HexText t bs -> HexText (a :: b :: t) (16 * h + l :: bs).

(** ** String arrays as sequences *)
Definition spec_step (st : list bytes * list bytes) (o : sa_op) : list bytes * list bytes :=
  let '(a, b) := st in
  match o with
  | SaAppend ok s => (if ok then a ++ [s] else a, b)
  | SaPrepend ok s => (if ok then s :: a else a, b)
  | SaRemove _ i _ => (if i <? 0 then a else firstn (Z.to_nat i) a ++ skipn (S (Z.to_nat i)) a, b)
  | SaCopy ok => (match b with [] => [] | _ => if ok then b else a end, b)
  | SaFree => ([], b)
  | SaSwap => (b, a)
  end.
Definition op_ok (o : sa_op) : Prop :=
  match o with SaAppend _ s | SaPrepend _ s => no_nul s | _ => True end.

(** lexicographic comparison of byte lists (a proper prefix is smaller) *)
Fixpoint lex (a b : bytes) : Z :=
  match a, b with
  | [], [] => 0
  | [], _ => -1
  | _, [] => 1
  | x :: a', y :: b' => if x <? y then -1 else if y <? x then 1 else lex a' b'
  end.
(** the strings with their terminators, one after the other *)
Definition flat (ws : list bytes) : bytes := flat_map (fun s => s ++ [0]) ws.
