(** Model of the compact configuration file format
    (src/generic/cfg_compact/cfg_compact.c).

    The file content is in the memory of an autobuf: the content, a NUL, and
    the rest of the allocated block.  Pointers are offsets; every access is
    checked, [None] is a fault.  Characters are unsigned bytes, the locale is
    "C"; memory for the database is available; log output is left out. *)
From Verif Require Import Base BitsModel StrBase StringModel CfgModel.

(** the string at an offset *)
Definition cstr_at (m : bytes) (p : Z) : option bytes :=
  match strlen m p with None => None | Some l => copy_out m p (Z.to_nat l) end.

(** the first position from [p] on without the property, as a loop over a pointer *)
Fixpoint skip_from (f : Z -> bool) (m : bytes) : option Z :=
  match m with
  | [] => None
  | c :: m' => if f c then match skip_from f m' with None => None | Some n => Some (n + 1) end else Some 0
  end.
Definition skip (f : Z -> bool) (m : bytes) (p : Z) : option Z :=
  if p <? 0 then None else match skip_from f (skipn (Z.to_nat p) m) with None => None | Some n => Some (p + n) end.

(** string.c:118-140 [str_trim] *)
Fixpoint trim_back (n : nat) (m : bytes) (p : Z) : option bytes :=
  match n with
  | O => Some m
  | S n' =>
    (* n' = --len *)
    match n' with
    | O => Some m
    | _ =>
      match zget m (p + Z.of_nat n') with
      | None => None
      | Some c => if isspace c then match zset m (p + Z.of_nat n') 0 with None => None | Some m' => trim_back n' m' p end else Some m
      end
    end
  end.
Definition trim_at (m : bytes) (p : Z) : option (bytes * Z) :=
  match skip isspace m p with
  | None => None
  | Some q =>
    match strlen m q with
    | None => None
    | Some len => match trim_back (Z.to_nat len) m q with None => None | Some m' => Some (m', q) end
    end
  end.

(** strchr(3): [Some None] is NULL *)
Definition strchr (m : bytes) (p : Z) (c : Z) : option (option Z) :=
  match skip (fun x => negb (x =? 0) && negb (x =? c)) m p with
  | None => None
  | Some q => match zget m q with None => None | Some x => Some (if x =? c then Some q else None) end
  end.

(** cfg.c:129-140 [cfg_is_allowed_key] *)
Definition key_char (c : Z) : bool :=
  (c =? 95) || ((48 <=? c) && (c <=? 57)) || ((97 <=? c) && (c <=? 122)) || ((65 <=? c) && (c <=? 90)).
Definition allowed_key (s : bytes) : bool :=
  match s with
  | c :: _ => if (48 <=? c) && (c <=? 57) then false else forallb key_char s
  | [] => true
  end.
(** cfg.h:128-131 [cfg_is_allowed_section_name] *)
Definition allowed_name (s : bytes) : bool := negb (existsb (fun c => c =? 32) s).

(** strscpy into the buffers of 128 bytes (string.c:73-84, see C31) *)
Definition scpy (s : bytes) : bytes := firstn 127 s.
(** `*name ? name : NULL` *)
Definition name_ptr (name : bytes) : option bytes := match name with [] => None | _ => Some name end.

(** the buffers section and name, the database, the result *)
Record pstate := { p_mem : bytes; p_section : bytes; p_name : bytes; p_db : cfgdb }.

(** cfg_compact.c:352-450 [_parse_line] *)
Definition parse_line (junk : nat -> Z) (s : pstate) (line : Z) : option (pstate * Z) :=
  match trim_at (p_mem s) line with
  | None => None
  | Some (m1, first) =>
    let s1 := {| p_mem := m1; p_section := p_section s; p_name := p_name s; p_db := p_db s |} in
    match zget m1 first with
    | None => None
    | Some c =>
      if (c =? 0) || (c =? 35) then Some (s1, 0)
      else if c =? 91 then
        let first := first + 1 in
        match strchr m1 first 93 with
        | None => None
        | Some None => Some (s1, -1)
        | Some (Some ptr) =>
          match zset m1 ptr 0 with
          | None => None
          | Some m2 =>
            match strchr m2 first 61 with
            | None => None
            | Some eq =>
              match (match eq with
                     | None => Some (m2, None)
                     | Some ptr =>
                       match zset m2 ptr 0 with
                       | None => None
                       | Some m3 => match trim_at m3 (ptr + 1) with None => None | Some (m4, q) => Some (m4, Some q) end
                       end
                     end) with
              | None => None
              | Some (m4, ptr) =>
                match trim_at m4 first with
                | None => None
                | Some (m5, first) =>
                  match cstr_at m5 first, (match ptr with None => Some None | Some q => match cstr_at m5 q with None => None | Some x => Some (Some x) end end) with
                  | Some type, Some nm =>
                    if zlen type =? 0 then Some ({| p_mem := m5; p_section := p_section s; p_name := p_name s; p_db := p_db s |}, -1)
                    else
                      let section := scpy type in
                      let name := match nm with None => [] | Some x => scpy x end in
                      let s5 := {| p_mem := m5; p_section := section; p_name := name; p_db := p_db s |} in
                      if negb (allowed_key section) then Some (s5, -1)
                      else if negb (zlen name =? 0) && negb (allowed_name name) then Some (s5, -1)
                      else
                        let '(db', ok, _) := add_section all_mem (p_db s) section (name_ptr name) in
                        Some ({| p_mem := m5; p_section := section; p_name := name; p_db := db' |}, if ok then 0 else -1)
                  | _, _ => None
                  end
                end
              end
            end
          end
        end
      else if zlen (p_section s) =? 0 then Some (s1, -1)
      else
        (* look for separator *)
        match skip (fun x => negb (isspace x)) m1 first with
        | None => None
        | Some ptr =>
          match zset m1 ptr 0 with
          | None => None
          | Some m2 =>
            match trim_at m2 (ptr + 1) with
            | None => None
            | Some (m3, ptr) =>
              match cstr_at m3 first, cstr_at m3 ptr with
              | Some key, Some value =>
                let s3 := {| p_mem := m3; p_section := p_section s; p_name := p_name s; p_db := p_db s |} in
                if zlen value =? 0 then Some (s3, -1)
                else if negb (allowed_key key) then Some (s3, -1)
                else
                  match add_entry all_mem junk (p_db s) (p_section s) (name_ptr (p_name s)) key value with
                  | None => None
                  | Some (db', ok) => Some ({| p_mem := m3; p_section := p_section s; p_name := p_name s; p_db := db' |}, if ok then 0 else -1)
                  end
              | _, _ => None
              end
            end
          end
        end
    end
  end.

(** cfg_compact.c:269-303 [_compact_parse] *)
Fixpoint parse_lines (fuel : nat) (junk : nat -> Z) (s : pstate) (len line : Z) : option (pstate * Z) :=
  if line <? len then
    match fuel with
    | O => None
    | S f =>
      match skip (fun x => negb (x =? 0) && negb (x =? 10)) (p_mem s) line with
      | None => None
      | Some eol =>
        match zset (p_mem s) eol 0 with
        | None => None
        | Some m1 =>
          match (if eol >? line then
                   match zget m1 (eol - 1) with
                   | None => None
                   | Some c => if c =? 13 then zset m1 (eol - 1) 0 else Some m1
                   end
                 else Some m1) with
          | None => None
          | Some m2 =>
            match parse_line junk {| p_mem := m2; p_section := p_section s; p_name := p_name s; p_db := p_db s |} line with
            | None => None
            | Some (s', r) => if r =? 0 then parse_lines f junk s' len (eol + 1) else Some (s', -1)
            end
          end
        end
      end
    end
  else Some (s, 0).
(** the file content read into the buffer of an autobuf; [slack] is the rest of
    the allocated block *)
Definition compact_parse (junk : nat -> Z) (db : cfgdb) (content slack : bytes) : option (cfgdb * Z) :=
  match parse_lines (length content) junk {| p_mem := content ++ 0 :: slack; p_section := []; p_name := []; p_db := db |} (zlen content) 0 with
  | None => None
  | Some (s, r) => Some (p_db s, r)
  end.

(** cfg_compact.c:312-336 [_compact_serialize]; the buffer has room *)
Fixpoint ser_values (key : bytes) (vs : list bytes) : bytes :=
  match vs with [] => [] | v :: vs' => (9 :: key ++ 32 :: v ++ [10]) ++ ser_values key vs' end.
Fixpoint ser_entries (es : entries) : option bytes :=
  match es with
  | [] => Some []
  | (Some e, a) :: es' =>
    match strings a, ser_entries es' with Some vs, Some r => Some (ser_values e vs ++ r) | _, _ => None end
  | (None, _) :: _ => None
  end.
Fixpoint ser_names (type : bytes) (ns : names) : option bytes :=
  match ns with
  | [] => Some []
  | (n, es) :: ns' =>
    let head := match n with Some x => 91 :: type ++ 61 :: x ++ [93; 10] | None => 91 :: type ++ [93; 10] end in
    match ser_entries es, ser_names type ns' with Some b, Some r => Some (head ++ b ++ r) | _, _ => None end
  end.
Fixpoint serialize (db : cfgdb) : option bytes :=
  match db with
  | [] => Some []
  | (Some t, ns) :: db' => match ser_names t ns, serialize db' with Some b, Some r => Some (b ++ r) | _, _ => None end
  | (None, _) :: _ => None
  end.
