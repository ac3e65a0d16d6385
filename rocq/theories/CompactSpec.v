(** What a file in the compact configuration format says. *)
From Verif Require Import Base BitsModel StrBase StringModel StringSpec CfgModel CfgSpec.

(** ** Lines end with a newline, with a NUL or with the file *)
Definition line_end (c : Z) : Prop := c = 0 \/ c = 10.
Definition in_line (l : bytes) : Prop := Forall (fun c => ~ line_end c) l.
Inductive Lines : bytes -> list bytes -> Prop :=
| Lines_nil : Lines [] []
| Lines_last l : l <> [] -> in_line l -> Lines l [l]
| Lines_cons l c rest ls : in_line l -> line_end c -> Lines rest ls -> Lines (l ++ c :: rest) (l :: ls).

(** ** A line: blank or a comment, `[type]` or `[type=name]`, `key value` *)
Inductive cline :=
| LBlank
| LSection (type : bytes) (name : option bytes)
| LEntry (key value : bytes)
| LNoValue (key : bytes)
| LError.

Definition ident_char (c : Z) : bool :=
  ((97 <=? c) && (c <=? 122)) || ((65 <=? c) && (c <=? 90)) || ((48 <=? c) && (c <=? 57)) || (c =? 95).
Definition ident (s : bytes) : bool :=
  forallb ident_char s && match s with [] => true | c :: _ => negb ((48 <=? c) && (c <=? 57)) end.
(** types and names are cut to 127 characters *)
Definition cut (s : bytes) : bytes := firstn 127 s.
Definition no_space (s : bytes) : Prop := ~ In 32 s.
Inductive head : bytes -> bytes -> cline -> Prop :=
| head_ok t n : t <> [] -> ident (cut t) = true -> no_space (cut n) ->
    head t n (LSection (cut t) (match n with [] => None | _ => Some (cut n) end))
| head_empty n : head [] n LError
| head_type t n : t <> [] -> ident (cut t) = false -> head t n LError
| head_name t n : t <> [] -> ident (cut t) = true -> ~ no_space (cut n) -> head t n LError.

Definition word (s : bytes) : Prop := Forall (fun c => isspace c = false) s.
Definition plain (s : bytes) : Prop := match s with [] => False | c :: _ => c <> 35 /\ c <> 91 end.
Inductive means : bytes -> cline -> Prop :=
| m_blank l : trimmed l [] -> means l LBlank
| m_comment l r : trimmed l (35 :: r) -> means l LBlank
| m_open l r : trimmed l (91 :: r) -> ~ In 93 r -> means l LError
| m_section l ty rest t cl : trimmed l (91 :: ty ++ 93 :: rest) -> ~ In 93 ty -> ~ In 61 ty -> trimmed ty t ->
    head t [] cl -> means l cl
| m_named l ty nm rest t n cl : trimmed l (91 :: ty ++ 61 :: nm ++ 93 :: rest) -> ~ In 93 ty -> ~ In 93 nm -> ~ In 61 ty ->
    trimmed ty t -> trimmed nm n -> head t n cl -> means l cl
| m_entry l k sp r v : trimmed l (k ++ sp :: r) -> plain k -> word k -> isspace sp = true -> trimmed r v -> means l (LEntry k v)
| m_key l k : trimmed l k -> plain k -> word k -> means l (LNoValue k).

(** ** A file: operations on the database, and whether it was read to its end *)
Definition place := option (bytes * option bytes).
Definition one_line (cur : place) (cl : cline) : option (place * list cop * Z) :=
  match cl with
  | LBlank => Some (cur, [], 0)
  | LError => Some (cur, [], -1)
  | LSection t n => Some (Some (t, n), [CAddSection t n], 0)
  | LEntry k v =>
    match cur with
    | None => Some (cur, [], -1)
    | Some (t, n) => if ident k then Some (cur, [CSet t n k v true true], 0) else Some (cur, [], -1)
    end
  | LNoValue k => match cur with None => Some (cur, [], -1) | Some _ => None end
  end.
Fixpoint follow (cur : place) (cls : list cline) : option (list cop * Z) :=
  match cls with
  | [] => Some ([], 0)
  | cl :: cls' =>
    match one_line cur cl with
    | None => None
    | Some (cur', ops, r) =>
      if r =? 0 then match follow cur' cls' with None => None | Some (ops', r') => Some (ops ++ ops', r') end
      else Some (ops, -1)
    end
  end.

(** ** Databases the format can hold *)
Definition good_type (t : bytes) : Prop := t <> [] /\ zlen t <= 127 /\ ident t = true.
Definition ends_ok (s : bytes) : Prop := (forall c r, s = c :: r -> isspace c = false) /\ (forall r c, s = r ++ [c] -> isspace c = false).
Definition good_name (n : option bytes) : Prop :=
  match n with None => True | Some s => s <> [] /\ zlen s <= 127 /\ ends_ok s /\ ~ In 32 s /\ ~ In 93 s /\ ~ In 10 s end.
Definition good_value (v : bytes) : Prop := v <> [] /\ ends_ok v /\ ~ In 10 v.
Definition op_good (o : cop) : Prop :=
  match o with
  | CAddSection t n => good_type t /\ good_name n
  | CSet t n e v _ _ => good_type t /\ good_name n /\ e <> [] /\ ident e = true /\ good_value v
  | _ => True
  end.
