(** Model of src/libcommon/template.c.  [None] is an access outside of an
    array.  The output is the text that is handed to the autobuf (C32). *)
From Verif Require Import Base BitsModel StrBase StringModel.

(** template.h:70-79 [struct abuf_template_data_entry]; the value may be NULL *)
Record tentry := { te_key : bytes; te_value : option bytes; te_string : bool }.
(** template.h:97-106 [struct abuf_template_storage_entry] *)
Record tindex := { ti_data : tentry; ti_start : Z; ti_end : Z }.
Definition TEMPLATE_MAX_KEYS : Z := 64.

(** template.c:187-202 [_find_template]; the arrays of entries are searched one
    after the other, here as one list.  "strncmp(key, txt, len) == 0 &&
    key[len] == 0" with a [txt] that has no zero in its [len] bytes is equality. *)
Fixpoint find_template (data : list tentry) (txt : bytes) : option tentry :=
  match data with
  | [] => None
  | d :: data' => if str_eqb (te_key d) txt then Some d else find_template data' txt
  end.

(** writing storage->indices[storage->count++]: the array has 64 entries *)
Definition add_index (idx : list tindex) (i : tindex) : option (list tindex) :=
  if zlen idx <? TEMPLATE_MAX_KEYS then Some (idx ++ [i]) else None.

(** template.c:106-135, the loop over the characters behind [pos] *)
Fixpoint init_loop (data : list tentry) (format : bytes) (rest : bytes) (pos start : Z)
    (no_open escape : bool) (idx : list tindex) : option (list tindex) :=
  match rest with
  | [] => Some idx
  | c :: rest' =>
    if negb escape && (c =? 37) then
      if no_open then init_loop data format rest' (pos + 1) pos false escape idx
      else
        let found :=
          if pos - start >? 1 then
            match copy_out format (start + 1) (Z.to_nat (pos - start - 1)) with
            | None => None
            | Some txt => Some (find_template data txt)
            end
          else Some None in
        match found with
        | None => None
        | Some None => init_loop data format rest' (pos + 1) start true escape idx
        | Some (Some d) =>
          match add_index idx {| ti_data := d; ti_start := start; ti_end := pos + 1 |} with
          | None => None
          | Some idx => init_loop data format rest' (pos + 1) start true escape idx
          end
        end
    else if c =? 92 then init_loop data format rest' (pos + 1) start no_open (negb escape) idx
    else init_loop data format rest' (pos + 1) start no_open false idx
  end.

(** template.c:86-103, the default format *)
Fixpoint default_idx (data : list tentry) (idx : list tindex) : option (list tindex) :=
  match data with
  | [] => Some idx
  | d :: data' =>
    match add_index idx {| ti_data := d; ti_start := 1; ti_end := 0 |} with
    | None => None
    | Some idx => default_idx data' idx
    end
  end.
Definition set_first (idx : list tindex) : list tindex :=
  match idx with [] => [] | i :: r => {| ti_data := ti_data i; ti_start := 0; ti_end := ti_end i |} :: r end.
Fixpoint set_last (idx : list tindex) : list tindex :=
  match idx with
  | [] => []
  | [i] => [{| ti_data := ti_data i; ti_start := ti_start i; ti_end := 1 |}]
  | i :: r => i :: set_last r
  end.

(** template.c:69-136 [abuf_template_init_ext]: the format and the indices *)
Definition template_init (data : list tentry) (format : option bytes) : option (bytes * list tindex) :=
  match format with
  | None => match default_idx data [] with
            | None => None
            | Some idx => Some ([9], set_last (set_first idx))
            end
  | Some f => match init_loop data f f 0 0 true false [] with None => None | Some idx => Some (f, idx) end
  end.

(** template.c:148-177 [abuf_add_template] *)
Fixpoint add_loop (format : bytes) (idx : list tindex) (keys : bool) (last : Z) (out : bytes) : option bytes :=
  match idx with
  | [] =>
    if last <? zlen format
    then match copy_out format last (Z.to_nat (zlen format - last)) with None => None | Some t => Some (out ++ t) end
    else Some out
  | i :: idx' =>
    match (if last <? ti_start i then copy_out format last (Z.to_nat (ti_start i - last)) else Some []) with
    | None => None
    | Some pre =>
      let value := if keys then Some (te_key (ti_data i)) else te_value (ti_data i) in
      let v := match value with Some v => v | None => [] end in
      add_loop format idx' keys (ti_end i) (out ++ pre ++ v)
    end
  end.
Definition add_template (st : bytes * list tindex) (keys : bool) : option bytes :=
  add_loop (fst st) (snd st) keys 0 [].
