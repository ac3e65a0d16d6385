(** A JSON reader (RFC 8259) and the structures written with json.c. *)
From Verif Require Import Base StrBase StringSpec TemplateModel JsonModel.

Inductive json :=
| JString (s : bytes)
| JToken (s : bytes)                       (* number, true, false or null *)
| JArray (l : list json)
| JObject (l : list (bytes * json)).

(** white space *)
Definition jws (c : Z) : bool := (c =? 32) || (c =? 9) || (c =? 10) || (c =? 13).
Definition jskip (s : bytes) : bytes := drop_while jws s.

(** a string behind its opening quotation mark; characters are bytes, an
    escape \u00xx stands for the byte xx (other \u escapes are not read) *)
Definition unhex (c : Z) : option Z :=
  if (48 <=? c) && (c <=? 57) then Some (c - 48)
  else if (97 <=? c) && (c <=? 102) then Some (c - 87)
  else if (65 <=? c) && (c <=? 70) then Some (c - 55)
  else None.
Definition jadd (c : Z) (r : option (bytes * bytes)) : option (bytes * bytes) :=
  match r with Some (t, rest) => Some (c :: t, rest) | None => None end.
(** the two-character escapes *)
Definition jshort (d : Z) : option Z :=
  if (d =? 34) || (d =? 92) || (d =? 47) then Some d
  else if d =? 98 then Some 8 else if d =? 102 then Some 12 else if d =? 110 then Some 10
  else if d =? 114 then Some 13 else if d =? 116 then Some 9 else None.
Fixpoint jstring (s : bytes) : option (bytes * bytes) :=
  match s with
  | [] => None
  | c :: r =>
    if c =? 34 then Some ([], r)
    else if c =? 92 then
      match r with
      | [] => None
      | d :: r =>
        if d =? 117 then
          match r with
          | x :: y :: a :: b :: r =>
            if (x =? 48) && (y =? 48) then
              match unhex a, unhex b with Some h, Some l => jadd (16 * h + l) (jstring r) | _, _ => None end
            else None
          | _ => None
          end
        else match jshort d with Some e => jadd e (jstring r) | None => None end
      end
    else if c <? 32 then None else jadd c (jstring r)
  end.

(** numbers: -? (0 | 1-9 digits) fraction? exponent? *)
Definition jexp (s : bytes) : bool :=
  match s with
  | [] => true
  | e :: r => ((e =? 101) || (e =? 69)) &&
              let d := match r with c :: r' => if (c =? 43) || (c =? 45) then r' else r | [] => r end in
              match d with [] => false | _ => forallb isdigit d end
  end.
Definition jfrac (s : bytes) : bool :=
  match s with
  | c :: r => if c =? 46 then match take_while isdigit r with [] => false | _ => jexp (drop_while isdigit r) end
              else jexp s
  | [] => true
  end.
Definition jnumber (s : bytes) : bool :=
  let u := match s with c :: r => if c =? 45 then r else s | [] => s end in
  match u with
  | c :: r => if c =? 48 then jfrac r else isdigit c && jfrac (drop_while isdigit r)
  | [] => false
  end.
Definition jtoken (s : bytes) : bool :=
  jnumber s || str_eqb s (zs "true") || str_eqb s (zs "false") || str_eqb s (zs "null").
(** characters of a token *)
Definition jtokc (c : Z) : bool :=
  isdigit c || ((97 <=? c) && (c <=? 122)) || ((65 <=? c) && (c <=? 90)) || (c =? 43) || (c =? 45) || (c =? 46).

(** values; [n] bounds the number of steps *)
Fixpoint jvalue (n : nat) (s : bytes) : option (json * bytes) :=
  match n with
  | O => None
  | S n =>
    match jskip s with
    | [] => None
    | c :: r =>
      if c =? 123 then
        match jskip r with
        | [] => None
        | d :: r' => if d =? 125 then Some (JObject [], r')
                     else match jmember n (d :: r') with Some (l, r') => Some (JObject l, r') | None => None end
        end
      else if c =? 91 then
        match jskip r with
        | [] => None
        | d :: r' => if d =? 93 then Some (JArray [], r')
                     else match jelem n (d :: r') with Some (l, r') => Some (JArray l, r') | None => None end
        end
      else if c =? 34 then match jstring r with Some (t, r') => Some (JString t, r') | None => None end
      else let t := take_while jtokc (c :: r) in
           if jtoken t then Some (JToken t, drop_while jtokc (c :: r)) else None
    end
  end
(** a member of an object and what follows it *)
with jmember (n : nat) (s : bytes) : option (list (bytes * json) * bytes) :=
  match n with
  | O => None
  | S n =>
    match jskip s with
    | [] => None
    | c :: r =>
      if c =? 34 then
        match jstring r with
        | None => None
        | Some (k, r) =>
          match jskip r with
          | [] => None
          | c :: r =>
            if c =? 58 then
              match jvalue n r with
              | None => None
              | Some (v, r) =>
                match jskip r with
                | [] => None
                | c :: r =>
                  if c =? 125 then Some ([(k, v)], r)
                  else if c =? 44 then match jmember n r with Some (l, r) => Some ((k, v) :: l, r) | None => None end
                  else None
                end
              end
            else None
          end
        end
      else None
    end
  end
with jelem (n : nat) (s : bytes) : option (list json * bytes) :=
  match n with
  | O => None
  | S n =>
    match jvalue n s with
    | None => None
    | Some (v, r) =>
      match jskip r with
      | [] => None
      | c :: r =>
        if c =? 93 then Some ([v], r)
        else if c =? 44 then match jelem n r with Some (l, r) => Some (v :: l, r) | None => None end
        else None
      end
    end
  end.
(** [s] is the text of [v] *)
Definition reads (s : bytes) (v : json) : Prop :=
  (exists n r, jvalue n s = Some (v, r) /\ jskip r = []) /\ forall n v' r', jvalue n s = Some (v', r') -> v' = v.

(** ** Structures: what is written between the start and the end of an object,
    and between the start and the end of an array (unnamed objects) *)
Inductive jitem :=
| IPrint (key : bytes) (string : bool) (value : bytes)
| ITemplates (data : list tentry)
| IObject (name : bytes) (l : jitems)
| IArray (name : bytes) (l : jobjs)
with jitems := INil | ICons (i : jitem) (l : jitems)
with jobjs := ONil | OCons (o : jitems) (l : jobjs).

(** the calls that write them *)
Fixpoint calls (i : jitem) : list jcall :=
  match i with
  | IPrint k s v => [CPrint k s v]
  | ITemplates d => [CTemplates d]
  | IObject n l => CStartObject (Some n) :: callss l ++ [CEndObject]
  | IArray n l => CStartArray n :: callso l ++ [CEndArray]
  end
with callss (l : jitems) : list jcall :=
  match l with INil => [] | ICons i l => calls i ++ callss l end
with callso (l : jobjs) : list jcall :=
  match l with ONil => [] | OCons o l => CStartObject None :: callss o ++ CEndObject :: callso l end.

(** the JSON values they stand for *)
Definition jval (string : bool) (v : bytes) : json :=
  if string then JString v else JToken (match v with [] => [48] | _ => v end).
Definition tvals (d : list tentry) : list (bytes * json) :=
  flat_map (fun e => match te_value e with Some v => [(te_key e, jval (te_string e) v)] | None => [] end) d.
Fixpoint meaning (i : jitem) : list (bytes * json) :=
  match i with
  | IPrint k s v => [(k, jval s v)]
  | ITemplates d => tvals d
  | IObject n l => [(n, JObject (meanings l))]
  | IArray n l => [(n, JArray (meaningo l))]
  end
with meanings (l : jitems) : list (bytes * json) :=
  match l with INil => [] | ICons i l => meaning i ++ meanings l end
with meaningo (l : jobjs) : list json :=
  match l with ONil => [] | OCons o l => JObject (meanings o) :: meaningo l end.

(** keys and names need no escape; values that are not strings are JSON tokens;
    strings are any text; templates have a value *)
Definition plain_key (k : bytes) : Prop := Forall (fun c => 32 <= c /\ c <> 34 /\ c <> 92) k.
Definition val_ok (string : bool) (v : bytes) : Prop :=
  if string then Forall is_u8 v else v = [] \/ jtoken v = true /\ forallb jtokc v = true.
Definition entry_ok (e : tentry) : Prop :=
  plain_key (te_key e) /\ forall v, te_value e = Some v -> val_ok (te_string e) v.
Fixpoint item_ok (i : jitem) : Prop :=
  match i with
  | IPrint k s v => plain_key k /\ val_ok s v
  | ITemplates d => Forall entry_ok d /\ exists e, In e d /\ te_value e <> None
  | IObject n l => plain_key n /\ items_ok l
  | IArray n l => plain_key n /\ objs_ok l
  end
with items_ok (l : jitems) : Prop :=
  match l with INil => True | ICons i l => item_ok i /\ items_ok l end
with objs_ok (l : jobjs) : Prop :=
  match l with ONil => True | OCons o l => items_ok o /\ objs_ok l end.
