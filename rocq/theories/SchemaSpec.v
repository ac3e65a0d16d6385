(** What a valid configuration is, and what users of a schema have to be told. *)
From Verif Require Import Base BitsModel StrBase CompModel StringModel CfgModel CfgSpec CfgTree SchemaModel.

(** configurations as the database builds them (C53): names are C strings, different without case, and every entry has a value *)
Definition swf : sdb -> Prop := okt true (okt false (okt true (fun vs : svals => vs <> []))).
(** ... and every section type has a section *)
Definition full (db : sdb) : Prop := forall t ns, In (t, ns) db -> ns <> [].
Definition sch_text (sch : schema) : Prop :=
  forall s, In s sch -> text (s_type s) /\ text (s_def s) /\ forall e, In e (s_entries s) -> text (e_key e).

(** the schema says something about a section type / an entry *)
Definition about (sch : schema) (t : bytes) (s : ssection) : Prop := In s sch /\ same (s_type s) t = true.
Definition about_entry (sch : schema) (t key : bytes) (e : sentry) : Prop :=
  exists s, about sch t s /\ In e (s_entries s) /\ same (e_key e) key = true.

(** a value is acceptable: all elements of a list, else the value that is used *)
Definition fine (e : sentry) (vs : svals) : Prop :=
  forall check, e_check e = Some check ->
  if e_list e then Forall (fun v => check v = true) vs else forall v r, vs = v :: r -> check v = true.

Definition section_in (db : sdb) (t : bytes) (n : option bytes) (es : sentries) : Prop := exists ns, In (Some t, ns) db /\ In (n, es) ns.
Definition entry_in (db : sdb) (t : bytes) (n : option bytes) (key : bytes) (vs : svals) : Prop := exists es, section_in db t n es /\ In (Some key, vs) es.

Definition types_known (sch : schema) (db : sdb) : Prop := forall t ns, In (Some t, ns) db -> exists s, about sch t s.
Definition entries_known (sch : schema) (db : sdb) : Prop :=
  forall t n key vs, (exists s, about sch t s) -> entry_in db t n key vs -> exists e, about_entry sch t key e.
Definition names_fine (sch : schema) (db : sdb) : Prop :=
  forall t n es s, section_in db t (Some n) es -> about sch t s -> s_mode s <> Unnamed /\ ~ In 32 n.
Definition values_fine (sch : schema) (db : sdb) : Prop :=
  forall t n key vs e, entry_in db t n key vs -> about_entry sch t key e -> fine e vs.
Definition sections_fine (sch : schema) (db : sdb) : Prop :=
  forall t n es s f, section_in db t n es -> about sch t s -> s_check s = Some f -> f n es = true.
(** a mandatory section is there *)
Definition sections_there (sch : schema) (db : sdb) : Prop :=
  forall s, In s sch -> s_mode s = NamedMandatory -> exists t n es, same (s_type s) t = true /\ section_in db t (Some n) es.
(** an entry without default is there: in the section itself, or for all sections in the unnamed one *)
Definition has_key (es : sentries) (key : bytes) : Prop := exists k vs, same key k = true /\ In (Some k, vs) es.
Definition entries_there (sch : schema) (db : sdb) : Prop :=
  forall t n es s e, section_in db t n es -> about sch t s -> In e (s_entries s) -> e_def e = None ->
  has_key es (e_key e) \/ exists es0, section_in db t None es0 /\ has_key es0 (e_key e).
(** the same, for the sections with a name only *)
Definition named_entries_there (sch : schema) (db : sdb) : Prop :=
  forall t n es s e, section_in db t (Some n) es -> about sch t s -> In e (s_entries s) -> e_def e = None ->
  has_key es (e_key e) \/ exists es0, section_in db t None es0 /\ has_key es0 (e_key e).

Definition valid_but (there : Prop) (sch : schema) (ignore : bool) (db : sdb) : Prop :=
  (ignore = true \/ types_known sch db /\ entries_known sch db) /\
  names_fine sch db /\ values_fine sch db /\ sections_fine sch db /\ sections_there sch db /\ there.
Definition valid (sch : schema) (ignore : bool) (db : sdb) : Prop := valid_but (entries_there sch db) sch ignore db.

(** two plugins do not check the same entry *)
Definition once (sch : schema) : Prop :=
  forall t key, text t -> text key -> (length (filter (fun e => present (e_check e)) (entries_for sch t key)) <= 1)%nat.

(** ** Changes *)
(** a section of this name counts as configured *)
Definition configured (db : sdb) (s : ssection) (n : option bytes) : bool :=
  match s_mode s, n with
  | Unnamed, _ => true
  | _, None => false
  | NamedDefault, Some x => present (find_sec db (s_type s) n) || (needs_default (t_find db (Some (s_type s))) && same (s_def s) x)
  | _, Some _ => present (find_sec db (s_type s) n)
  end.
(** what a plugin has to know about a section: nothing if it is not configured, else the values of all entries *)
Definition view (sch : schema) (db : sdb) (s : ssection) (n : option bytes) : option (list (option svals)) :=
  if configured db s n then Some (map (fun e => get_val sch db (s_type s) n (e_key e)) (s_entries s)) else None.
(** a plugin that remembers what its handler is told *)
Definition memory := option bytes -> option (list (option svals)).
Definition remember (s : ssection) (m : memory) (c : call) : memory :=
  fun n => if same_name (c_name c) n then
             if c_post c || negb (is_named_mode (s_mode s)) then Some (map (fun v => snd (fst v)) (c_vals c)) else None
           else m n.
Definition told (s : ssection) (m : memory) (cs : list call) : memory := fold_left (remember s) cs m.
(** the names a plugin is interested in *)
Definition relevant (s : ssection) (n : option bytes) : Prop :=
  text_name n /\ match s_mode s with Unnamed => n = None | _ => n <> None end.
