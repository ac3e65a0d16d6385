(** Model of the configuration database (src/libconfig/cfg_db.c,
    include/oonf/libconfig/cfg_db.h).

    The AVL trees are lists in the order of the comparator (what avl.c does is
    the subject of the Avl files); structures freed are gone from the lists.
    Names and values are C strings; the NULL pointer is [None].  [None] as a
    result of a function is a fault. *)
From Verif Require Import Base BitsModel StrBase CompModel StringModel.

(** cfg.c:149-162 [cfg_avlcmp_keys], cfg.h:98-101 [cfg_cmp_keys] *)
Definition kcmp (p1 p2 : option bytes) : Z :=
  match p1, p2 with
  | None, None => 0
  | None, Some _ => -1
  | Some _, None => 1
  | Some a, Some b => strcasecmp a b
  end.

(** ** Trees *)
Definition tree (A : Type) : Type := list (option bytes * A).
(** avl_find_element *)
Fixpoint t_find {A} (l : tree A) (k : option bytes) : option A :=
  match l with
  | [] => None
  | (k', x) :: l' => if kcmp k k' =? 0 then Some x else t_find l' k
  end.
(** avl_insert into a tree without duplicates; the key is not in the tree *)
Fixpoint t_insert {A} (l : tree A) (k : option bytes) (x : A) : tree A :=
  match l with
  | [] => [(k, x)]
  | (k', y) :: l' => if kcmp k k' <? 0 then (k, x) :: l else (k', y) :: t_insert l' k x
  end.
(** avl_remove of the element found *)
Fixpoint t_remove {A} (l : tree A) (k : option bytes) : tree A :=
  match l with
  | [] => []
  | (k', y) :: l' => if kcmp k k' =? 0 then l' else (k', y) :: t_remove l' k
  end.
(** a change of the element found *)
Fixpoint t_update {A} (l : tree A) (k : option bytes) (x : A) : tree A :=
  match l with
  | [] => []
  | (k', y) :: l' => if kcmp k k' =? 0 then (k', x) :: l' else (k', y) :: t_update l' k x
  end.

(** struct cfg_named_section, cfg_section_type, cfg_db (cfg_db.h:65-121) *)
Definition entries := tree strarray.
Definition names := tree entries.
Definition cfgdb := tree names.

(** which allocations succeed: section type, section, entry, value *)
Record mem := { ok_type : bool; ok_name : bool; ok_entry : bool; ok_value : bool }.

(** cfg_db.c:156-186 [_cfg_db_add_section]: database, success, and whether a new
    section was created; cfg_db.c:469-492, 469-493 [_alloc_section],
    [_alloc_namedsection] *)
Definition add_section (m : mem) (db : cfgdb) (type : bytes) (name : option bytes) : cfgdb * bool * bool :=
  match t_find db (Some type) with
  | None =>
    if ok_type m then
      let db1 := t_insert db (Some type) [] in
      if ok_name m then (t_update db1 (Some type) [(name, [])], true, true) else (db1, false, true)
    else (db, false, false)
  | Some ns =>
    match t_find ns name with
    | Some _ => (db, true, false)
    | None => if ok_name m then (t_update db (Some type) (t_insert ns name []), true, true) else (db, false, true)
    end
  end.
(** cfg_db.c:216-226 [cfg_db_find_namedsection] *)
Definition find_section (db : cfgdb) (type : bytes) (name : option bytes) : option entries :=
  match t_find db (Some type) with None => None | Some ns => t_find ns name end.
(** cfg_db.c:322-333 [cfg_db_find_entry] *)
Definition find_entry (db : cfgdb) (type : bytes) (name : option bytes) (entry : bytes) : option strarray :=
  match find_section db type name with None => None | Some es => t_find es (Some entry) end.
(** the section of the type found is changed *)
Definition put_section (db : cfgdb) (type : bytes) (name : option bytes) (es : entries) : cfgdb :=
  match t_find db (Some type) with
  | None => db
  | Some ns => t_update db (Some type) (t_update ns name es)
  end.
(** cfg_db.c:195-207 [cfg_db_remove_sectiontype] *)
Definition remove_type (db : cfgdb) (type : bytes) : cfgdb * Z :=
  match t_find db (Some type) with
  | None => (db, -1)
  | Some _ => (t_remove db (Some type), 0)
  end.
(** cfg_db.c:547-559 [_free_namedsection] *)
Definition drop_section (db : cfgdb) (type : bytes) (name : option bytes) : cfgdb :=
  match t_find db (Some type) with
  | None => db
  | Some ns => t_update db (Some type) (t_remove ns name)
  end.
(** cfg_db.c:238-250 [cfg_db_remove_namedsection] *)
Definition remove_section (db : cfgdb) (type : bytes) (name : option bytes) : cfgdb * Z :=
  match find_section db type name with
  | None => (db, -1)
  | Some _ => (drop_section db type name, 0)
  end.
(** cfg_db.c:265-312 [cfg_db_set_entry_ext]: database and whether the result
    is not NULL *)
Definition set_entry (m : mem) (junk : nat -> Z) (db : cfgdb) (type : bytes) (name : option bytes) (entry value : bytes)
  (append front : bool) : option (cfgdb * bool) :=
  let '(db1, ok, new_section) := add_section m db type name in
  if negb ok then Some (db1, false)
  else
    match find_section db1 type name with
    | None => None
    | Some es =>
      let fail := if new_section then drop_section db1 type name else db1 in
      match t_find es (Some entry) with
      | None =>
        if negb (ok_entry m) then Some (fail, false)
        else
          match (if front then sa_prepend else sa_append) (ok_value m) junk sa_init value with
          | None => None
          | Some (r, a) =>
            if r =? 0 then Some (put_section db1 type name (t_insert es (Some entry) a), true)
            else Some (fail, false)
          end
      | Some a0 =>
        let a1 := if append then a0 else sa_init in
        match (if front then sa_prepend else sa_append) (ok_value m) junk a1 value with
        | None => None
        | Some (r, a) =>
          if r =? 0 then Some (put_section db1 type name (t_update es (Some entry) a), true)
          else Some (put_section fail type name (t_update es (Some entry) a), false)
        end
      end
    end.
(** cfg_db.h:391-424 [cfg_db_set_entry], [cfg_db_overwrite_entry],
    [cfg_db_add_entry]: new values are put in front *)
Definition overwrite_entry m junk db type name entry value := set_entry m junk db type name entry value false true.
Definition add_entry m junk db type name entry value := set_entry m junk db type name entry value true true.
(** cfg_db.c:343-356 [cfg_db_remove_entry] *)
Definition remove_entry (db : cfgdb) (type : bytes) (name : option bytes) (entry : bytes) : cfgdb * Z :=
  match find_section db type name with
  | None => (db, -1)
  | Some es =>
    match t_find es (Some entry) with
    | None => (db, -1)
    | Some _ => (put_section db type name (t_remove es (Some entry)), 0)
    end
  end.
(** cfg_db.c:431-461 [cfg_db_remove_element]: the first element of the list
    equal to the value *)
Fixpoint first_equal (a : strarray) (os : list Z) (value : bytes) : option (option Z) :=
  match os with
  | [] => Some None
  | o :: os' =>
    match sa_string a o with
    | None => None
    | Some s => if str_eqb s value then Some (Some o) else first_equal a os' value
    end
  end.
Definition remove_element (m : mem) (junk : nat -> Z) (db : cfgdb) (type : bytes) (name : option bytes) (entry value : bytes)
  : option (cfgdb * Z) :=
  match find_section db type name with
  | None => Some (db, -1)
  | Some es =>
    match t_find es (Some entry) with
    | None => Some (db, -1)
    | Some a =>
      match sa_get a 1 with
      | None => None
      | Some None =>
        (* strcmp(value, entry->val.value) *)
        match sa_string a 0 with
        | None => None
        | Some s => if str_eqb value s then Some (put_section db type name (t_remove es (Some entry)), 0) else Some (db, -1)
        end
      | Some (Some _) =>
        match sa_offsets a with
        | None => None
        | Some os =>
          match first_equal a os value with
          | None => None
          | Some None => Some (db, -1)
          | Some (Some o) =>
            match sa_remove (ok_value m) junk a o true with
            | None => None
            | Some a' => Some (put_section db type name (t_update es (Some entry) a'), 0)
            end
          end
        end
      end
    end
  end.
(** cfg_db.c:367-399 [cfg_db_get_entry_value]; [schema]: the default values of
    the schema linked to the database which are not NULL *)
Definition get_value (schema : option (bytes -> bytes -> option strarray)) (db : cfgdb) (type : bytes) (name : option bytes) (entry : bytes)
  : option strarray :=
  match find_entry db type name entry with
  | Some a => Some a
  | None =>
    match (match name with Some _ => find_entry db type None entry | None => None end) with
    | Some a => Some a
    | None => match schema with None => None | Some f => f type entry end
    end
  end.

(** ** Histories *)
Inductive cop :=
| CAddSection (type : bytes) (name : option bytes)
| CSet (type : bytes) (name : option bytes) (entry value : bytes) (append front : bool)
| CRemoveType (type : bytes)
| CRemoveSection (type : bytes) (name : option bytes)
| CRemoveEntry (type : bytes) (name : option bytes) (entry : bytes)
| CRemoveElement (type : bytes) (name : option bytes) (entry value : bytes).
(** the result: 0 or a pointer, -1 or NULL *)
Definition c_step (m : mem) (junk : nat -> Z) (db : cfgdb) (o : cop) : option (cfgdb * Z) :=
  match o with
  | CAddSection t n => let '(db', ok, _) := add_section m db t n in Some (db', if ok then 0 else -1)
  | CSet t n e v ap fr => match set_entry m junk db t n e v ap fr with None => None | Some (db', ok) => Some (db', if ok then 0 else -1) end
  | CRemoveType t => Some (remove_type db t)
  | CRemoveSection t n => Some (remove_section db t n)
  | CRemoveEntry t n e => Some (remove_entry db t n e)
  | CRemoveElement t n e v => remove_element m junk db t n e v
  end.
Fixpoint c_run (junk : nat -> Z) (db : cfgdb) (ops : list (mem * cop)) : option (cfgdb * list Z) :=
  match ops with
  | [] => Some (db, [])
  | (m, o) :: ops' =>
    match c_step m junk db o with
    | None => None
    | Some (db', r) => match c_run junk db' ops' with None => None | Some (db'', rs) => Some (db'', r :: rs) end
    end
  end.

(** ** Copies *)
(** the strings of an array, in the order of strarray_for_each_element *)
Definition strings (a : strarray) : option (list bytes) :=
  match sa_offsets a with
  | None => None
  | Some os => fold_right (fun o acc => match sa_string a o, acc with Some s, Some l => Some (s :: l) | _, _ => None end) (Some []) os
  end.
Definition wanted (filter : option bytes) (k : option bytes) : bool :=
  match filter with None => true | Some f => kcmp k (Some f) =? 0 end.
(** cfg_db.c:108-145 [_cfg_db_append]; memory is available.  (The callers of
    this model are cfg_db_duplicate and cfg_db_copy*, cfg_db.h:184-287.) *)
Definition all_mem : mem := {| ok_type := true; ok_name := true; ok_entry := true; ok_value := true |}.
Fixpoint append_values (junk : nat -> Z) (dst : cfgdb) (type : bytes) (name : option bytes) (entry : bytes) (vs : list bytes) : option cfgdb :=
  match vs with
  | [] => Some dst
  | v :: vs' =>
    match set_entry all_mem junk dst type name entry v true false with
    | Some (dst', true) => append_values junk dst' type name entry vs'
    | _ => None
    end
  end.
Fixpoint append_entries (junk : nat -> Z) (dst : cfgdb) (type : bytes) (name : option bytes) (fe : option bytes) (es : entries) : option cfgdb :=
  match es with
  | [] => Some dst
  | (Some e, a) :: es' =>
    if wanted fe (Some e) then
      match strings a with
      | None => None
      | Some vs => match append_values junk dst type name e vs with None => None | Some dst' => append_entries junk dst' type name fe es' end
      end
    else append_entries junk dst type name fe es'
  | (None, _) :: _ => None
  end.
Fixpoint append_names (junk : nat -> Z) (dst : cfgdb) (type : bytes) (fn fe : option bytes) (ns : names) : option cfgdb :=
  match ns with
  | [] => Some dst
  | (name, es) :: ns' =>
    if wanted fn name then
      let '(dst1, ok, _) := add_section all_mem dst type name in
      if ok then
        match append_entries junk dst1 type name fe es with None => None | Some dst2 => append_names junk dst2 type fn fe ns' end
      else None
    else append_names junk dst type fn fe ns'
  end.
Fixpoint append_db (junk : nat -> Z) (dst : cfgdb) (ft fn fe : option bytes) (src : cfgdb) : option cfgdb :=
  match src with
  | [] => Some dst
  | (Some type, ns) :: src' =>
    if wanted ft (Some type) then
      match append_names junk dst type fn fe ns with None => None | Some dst' => append_db junk dst' ft fn fe src' end
    else append_db junk dst ft fn fe src'
  | (None, _) :: _ => None
  end.
Definition duplicate (junk : nat -> Z) (src : cfgdb) : option cfgdb := append_db junk [] None None None src.
