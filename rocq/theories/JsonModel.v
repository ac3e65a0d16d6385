(** Model of src/libcommon/json.c.  The output is the text that is handed to
    the autobuf (C32). *)
From Verif Require Import Base StrBase TemplateModel.

(** json.h:56-62 [struct json_session] *)
Record jsession := { j_out : bytes; j_empty : bool }.

(** json.c:60-65 [json_init_session] *)
Definition json_init : jsession := {| j_out := []; j_empty := true |}.
Definition jputs (s : jsession) (t : bytes) (empty : bool) : jsession :=
  {| j_out := j_out s ++ t; j_empty := empty |}.

(** string.h:124-128 [str_char_is_printable] *)
Definition printable (c : Z) : bool := negb ((c <? 32) || (c =? 127) || (c =? 255)).
(** "%02x" *)
Definition hexd (v : Z) : Z := if v <? 10 then 48 + v else 87 + v.
Definition hex2 (v : Z) : bytes := [hexd (v / 16); hexd (v mod 16)].

(** json.c:219-256 [_json_printvalue]; runs of characters that need no escape
    are copied at once, here one by one *)
Definition json_escape (c : Z) : bytes :=
  if negb (printable c) then zs "\u00" ++ hex2 c
  else if (c =? 92) || (c =? 34) then [92; c]
  else [c].
Definition printvalue (txt : bytes) (delimiter : bool) : bytes :=
  (if delimiter then [34] else match txt with [] => [48] | _ => [] end) ++
  flat_map json_escape txt ++ (if delimiter then [34] else []).

(** json.c:72-81 [json_start_array] *)
Definition start_array (s : jsession) (name : bytes) : jsession :=
  jputs s ((if j_empty s then [] else [44]) ++ [34] ++ name ++ zs """: [") true.
(** json.c:88-94 [json_end_array] *)
Definition end_array (s : jsession) : jsession := jputs s [93] false.
(** json.c:101-115 [json_start_object] *)
Definition start_object (s : jsession) (name : option bytes) : jsession :=
  jputs s ((if j_empty s then [] else [44]) ++
           match name with Some n => [34] ++ n ++ zs """: {" | None => [123] end) true.
(** json.c:124-133 [json_print] *)
Definition json_print (s : jsession) (key : bytes) (string : bool) (value : bytes) : jsession :=
  jputs s ((if j_empty s then [] else [44]) ++ [34] ++ key ++ zs """:" ++ printvalue value string) false.
(** json.c:140-146 [json_end_object] *)
Definition end_object (s : jsession) : jsession := jputs s [125] false.

(** json.c:176-211 [_add_template] without brackets *)
Fixpoint add_template_txt (data : list tentry) (first : bool) : bytes :=
  match data with
  | [] => []
  | d :: data' =>
    match te_value d with
    | None => add_template_txt data' first
    | Some v => (if first then [] else [44; 10]) ++ [34] ++ te_key d ++ zs """:" ++ printvalue v (te_string d) ++
                add_template_txt data' false
    end
  end.
(** json.c:155-166 [json_print_templates] *)
Definition print_templates (s : jsession) (data : list tentry) : jsession :=
  jputs s ((if j_empty s then [10] else [44; 10]) ++ add_template_txt data true) false.

Inductive jcall :=
| CStartArray (name : bytes) | CEndArray
| CStartObject (name : option bytes) | CEndObject
| CPrint (key : bytes) (string : bool) (value : bytes)
| CTemplates (data : list tentry).
Definition jstep (s : jsession) (c : jcall) : jsession :=
  match c with
  | CStartArray n => start_array s n
  | CEndArray => end_array s
  | CStartObject n => start_object s n
  | CEndObject => end_object s
  | CPrint k st v => json_print s k st v
  | CTemplates d => print_templates s d
  end.
Definition jrun (cs : list jcall) (s : jsession) : jsession := fold_left jstep cs s.
