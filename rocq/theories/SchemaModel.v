(** Model of schema validation and change handling (src/libconfig/cfg_schema.c).

    The trees of the database are those of [CfgModel]; a value is the list of its
    strings (strarray: C56, C57).  Validation callbacks of entries get the value
    only (the section name is for their messages); the ones of sections get the
    name and the entries.  [None] as a result is a use of freed memory.

    The trees of the schema (cfg_schema.h:1080-1092) contain all registered
    sections and their entries ordered by type and key, those with the same key in
    the order of registration: here the schema is the list of sections in this
    order, and the sections (entries) with a key are filtered out of it.  Whether
    an error is found does not depend on the order of the other ones. *)
From Verif Require Import Base BitsModel StrBase CompModel StringModel CfgModel.

Definition svals := list bytes.
Definition sentries := tree svals.
Definition snames := tree sentries.
Definition sdb := tree snames.

(** cfg_schema.h:1100-1121 [enum cfg_schema_section_mode] *)
Inductive smode := Unnamed | Named | NamedMandatory | NamedDefault.
(** cfg_schema.h:1204-1275 [struct cfg_schema_entry]; [e_def]: [None] is a NULL
    pointer; [e_check]: true is the result 0 of cb_validate *)
Record sentry := { e_key : bytes; e_def : option svals; e_list : bool; e_check : option (bytes -> bool) }.
(** cfg_schema.h:1129-1188 [struct cfg_schema_section]; [s_def] is used in mode
    NamedDefault only, and is not NULL there *)
Record ssection := { s_type : bytes; s_mode : smode; s_def : bytes; s_entries : list sentry;
  s_check : option (option bytes -> sentries -> bool); s_delta : bool }.
Definition schema := list ssection.

Definition is_named_mode (m : smode) : bool := match m with Unnamed => false | _ => true end.
Definition keq (a b : bytes) : bool := kcmp (Some a) (Some b) =? 0.

(** avl_find_element / avl_find_le_element / avl_for_element_range, cfg_schema.c:206,222,225 *)
Definition sections_for (sch : schema) (type : bytes) : list ssection := filter (fun s => keq type (s_type s)) sch.
(** avl_for_each_elements_with_key(&db->schema->entries, ...), cfg_schema.c:1002 *)
Definition entries_for (sch : schema) (type key : bytes) : list sentry :=
  flat_map (fun s => if keq type (s_type s) then filter (fun e => keq key (e_key e)) (s_entries s) else []) sch.

(** ** Validation *)

(** cfg_schema.c:1012-1030: the loop over the values of an entry; result: the
    values left and the warning flag *)
Fixpoint value_loop (check : bytes -> bool) (list_ cleanup do_remove warning : bool) (vs : svals) : svals * bool :=
  match vs with
  | [] => ([], warning)
  | v :: vs' =>
    let w := warning || (negb do_remove && negb (check v)) in
    let '(r, w') := value_loop check list_ cleanup (do_remove || negb list_) w vs' in
    ((if (w || do_remove) && cleanup then r else v :: r), w')
  end.
(** cfg_schema.c:1002-1037: all schema entries with the key; [cur]: the entry, [None] when it was freed *)
Fixpoint check_with (ses : list sentry) (cleanup : bool) (cur : option svals) (warning : bool) : option (option svals * bool) :=
  match ses with
  | [] => Some (cur, warning)
  | se :: ses' =>
    match e_check se with
    | None => check_with ses' cleanup cur warning
    | Some check =>
      match cur with
      | None => None
      | Some vs =>
        let '(vs', w) := value_loop check (e_list se) cleanup false warning vs in
        check_with ses' cleanup (match vs' with [] => None | _ => Some vs' end) w
      end
    end
  end.
(** cfg_schema.c:981-1037 [_validate_cfg_entry]: the entry left, and the result *)
Definition check_entry (sch : schema) (cleanup ignore : bool) (type key : bytes) (vs : svals) : option (option svals * bool) :=
  let ses := entries_for sch type key in
  match check_with ses cleanup (Some vs) false with
  | None => None
  | Some (cur, w) => Some (cur, match ses with [] => if ignore then w else true | _ => w end)
  end.
(** cfg_schema.c:268-271: all entries of a section *)
Fixpoint check_entries (sch : schema) (cleanup ignore : bool) (type : bytes) (es : sentries) (error : bool) : option (sentries * bool) :=
  match es with
  | [] => Some ([], error)
  | (None, _) :: _ => None
  | (Some key, vs) :: es' =>
    match check_entry sch cleanup ignore type key vs with
    | None => None
    | Some (cur, w) =>
      match check_entries sch cleanup ignore type es' (error || w) with
      | None => None
      | Some (r, e) => Some (match cur with None => r | Some vs' => (Some key, vs') :: r end, e)
      end
    end
  end.
(** cfg.h:129 [cfg_is_allowed_section_name] *)
Definition allowed_name (n : bytes) : bool := negb (existsb (fun c => c =? 32) n).
(** cfg_schema.c:228-280: all sections of a type, for one section of the schema *)
Fixpoint check_names (sch : schema) (s : ssection) (cleanup ignore : bool) (type : bytes) (ns : snames) (error : bool) : option (snames * bool) :=
  match ns with
  | [] => Some ([], error)
  | (n, es) :: ns' =>
    let warning := match n with None => false | Some x => negb (is_named_mode (s_mode s)) || negb (allowed_name x) end in
    if warning then
      match check_names sch s cleanup ignore type ns' true with
      | None => None
      | Some (r, e) => Some (if cleanup then r else (n, es) :: r, e)
      end
    else
      match check_entries sch cleanup ignore type es error with
      | None => None
      | Some (es', e1) =>
        let e2 := if e1 then true else match s_check s with None => false | Some f => negb (f n es') end in
        match check_names sch s cleanup ignore type ns' e2 with
        | None => None
        | Some (r, e) => Some ((n, es') :: r, e)
        end
      end
  end.
Fixpoint check_sections (sch : schema) (ss : list ssection) (cleanup ignore : bool) (type : bytes) (ns : snames) (error : bool) : option (snames * bool) :=
  match ss with
  | [] => Some (ns, error)
  | s :: ss' =>
    match check_names sch s cleanup ignore type ns error with
    | None => None
    | Some (ns', e) => check_sections sch ss' cleanup ignore type ns' e
    end
  end.
(** cfg_schema.c:204-286: all section types *)
Fixpoint check_types (sch : schema) (cleanup ignore : bool) (db : sdb) (error : bool) : option (sdb * bool) :=
  match db with
  | [] => Some ([], error)
  | (None, _) :: _ => None
  | (Some type, ns) :: db' =>
    match sections_for sch type with
    | [] =>
      match check_types sch cleanup ignore db' (if ignore then error else true) with
      | None => None
      | Some (r, e) => Some (if negb ignore && cleanup then r else (Some type, ns) :: r, e)
      end
    | ss =>
      match check_sections sch ss cleanup ignore type ns error with
      | None => None
      | Some (ns', e1) =>
        match check_types sch cleanup ignore db' e1 with
        | None => None
        | Some (r, e) => Some (match ns' with [] => if cleanup then r else (Some type, []) :: r | _ => (Some type, ns') :: r end, e)
        end
      end
    end
  end.
(** cfg_schema.c:288-302: a mandatory section is missing *)
Definition missing_section (db : sdb) (s : ssection) : bool :=
  match s_mode s with
  | NamedMandatory =>
    match t_find db (Some (s_type s)) with
    | None | Some [] | Some [(None, _)] => true
    | _ => false
    end
  | _ => false
  end.
(** cfg_schema.c:304-332: a mandatory entry is missing *)
Definition missing_entry (db : sdb) (s : ssection) (e : sentry) : bool :=
  match t_find db (Some (s_type s)), e_def e with
  | Some ns, None =>
    let unnamed_without := match t_find ns None with None => true | Some es => match t_find es (Some (e_key e)) with None => true | Some _ => false end end in
    unnamed_without &&
    existsb (fun q => match fst q with None => false | Some _ => match t_find (snd q) (Some (e_key e)) with None => true | Some _ => false end end) ns
  | _, _ => false
  end.
(** cfg_schema.c:191-344 [cfg_schema_validate]; the database has a schema *)
Definition validate (sch : schema) (cleanup ignore : bool) (db : sdb) : option (sdb * Z) :=
  match check_types sch cleanup ignore db false with
  | None => None
  | Some (db', e) =>
    let e' := e || existsb (missing_section db') sch || existsb (fun s => existsb (missing_entry db' s) (s_entries s)) sch in
    Some (db', if e' then -1 else 0)
  end.

(** ** Changes *)
(** cfg_db.c:217-237, 322-334 *)
Definition find_sec (db : sdb) (type : bytes) (name : option bytes) : option sentries :=
  match t_find db (Some type) with None => None | Some ns => t_find ns name end.
Definition find_ent (db : sdb) (type : bytes) (name : option bytes) (key : bytes) : option svals :=
  match find_sec db type name with None => None | Some es => t_find es (Some key) end.
(** cfg_db.c:367-399 [cfg_db_get_entry_value]; the default is that of the first schema entry with the key *)
Definition get_val (sch : schema) (db : sdb) (type : bytes) (name : option bytes) (key : bytes) : option svals :=
  match find_ent db type name key with
  | Some v => Some v
  | None =>
    match (match name with None => None | Some _ => find_ent db type None key end) with
    | Some v => Some v
    | None => match entries_for sch type key with [] => None | e :: _ => e_def e end
    end
  end.
(** string.c:520-549 [strarray_cmp] (C57): the same or not *)
Fixpoint svals_eqb (a b : svals) : bool :=
  match a, b with [], [] => true | x :: a', y :: b' => str_eqb x y && svals_eqb a' b' | _, _ => false end.
Definition sdiff (a b : option svals) : bool :=
  match a, b with None, None => false | Some x, Some y => negb (svals_eqb x y) | _, _ => true end.

(** what a delta handler gets: cfg_schema.h:1162-1178, 1266-1275; [c_pre], [c_post]: the pointers are not NULL *)
Record call := { c_name : option bytes; c_pre : bool; c_post : bool; c_vals : list (option svals * option svals * bool) }.
Definition present {A} (o : option A) : bool := match o with None => false | Some _ => true end.

(** cfg_schema.c:1048-1104 [_handle_named_section_change]: the calls of the handler (none or one) *)
Definition handle_named (sch : schema) (s : ssection) (pre post : sdb) (name : option bytes) (startup pre_def post_def : bool) : list call :=
  if is_named_mode (s_mode s) && negb (present name) then []
  else
    let p0 := present (find_sec pre (s_type s) name) in
    let q0 := present (find_sec post (s_type s) name) in
    let is_def := match s_mode s, name with NamedDefault, Some n => strcasecmp (s_def s) n =? 0 | _, _ => false end in
    let p := if is_def && negb p0 && negb startup then pre_def else p0 in
    let q := if is_def && negb q0 then post_def else q0 in
    let vals := map (fun e => let a := get_val sch pre (s_type s) name (e_key e) in let b := get_val sch post (s_type s) name (e_key e) in (a, b, sdiff a b)) (s_entries s) in
    let changed := (is_named_mode (s_mode s) && negb (Bool.eqb p q)) || existsb snd vals in
    if changed || startup then [{| c_name := name; c_pre := p; c_post := q; c_vals := vals |}] else [].

(** cfg_schema.c:843-862 [_section_needs_default_named_one] *)
Definition needs_default (t : option snames) : bool :=
  match t with
  | None | Some [] => true
  | Some [(n, _)] => negb (present n)
  | Some _ => false
  end.
Definition names_of (t : option snames) : list (option bytes) := match t with None => [] | Some ns => map fst ns end.
(** cfg_schema.c:907-973: one section of the schema with a handler *)
Definition handle_section (sch : schema) (s : ssection) (pre post : sdb) (startup : bool) : list call :=
  let pt := t_find pre (Some (s_type s)) in
  let qt := t_find post (Some (s_type s)) in
  let pd := match s_mode s with NamedDefault => negb startup && needs_default pt | _ => false end in
  let qd := match s_mode s with NamedDefault => needs_default qt | _ => false end in
  flat_map (fun n => handle_named sch s pre post n startup pd qd) (names_of qt) ++
  flat_map (fun n => match (match qt with None => None | Some ns => t_find ns n end) with
                     | None => handle_named sch s pre post n startup pd qd
                     | Some _ => []
                     end) (names_of pt) ++
  (if startup && (match s_mode s with Unnamed => true | _ => false end) && negb (present pt) && negb (present qt)
   then handle_named sch s pre post None true pd qd else []) ++
  (if negb (Bool.eqb pd qd) then handle_named sch s pre post (Some (s_def s)) true pd qd else []).
(** cfg_schema.c:873-967 [_handle_db_changes]: the handlers in the order of their registration *)
Definition handle_changes (sch : schema) (pre post : sdb) (startup : bool) : list (ssection * list call) :=
  map (fun s => (s, handle_section sch s pre post startup)) (filter s_delta sch).
(** cfg_schema.c:386-390 [cfg_schema_handle_db_changes], 397-412 [cfg_schema_handle_db_startup_changes] *)
Definition db_changes (sch : schema) (pre post : sdb) := handle_changes sch pre post false.
Definition startup_changes (sch : schema) (post : sdb) := handle_changes sch [] post true.
