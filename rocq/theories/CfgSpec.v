(** What a configuration database is: sections with a type and a name (or none),
    and lists of values for the entries of the sections; all names are compared
    without case.  None of this refers to the trees of the model. *)
From Verif Require Import Base BitsModel StrBase StringModel CfgModel.

Definition same (a b : bytes) : bool := str_eqb (map tolower a) (map tolower b).
Definition same_name (a b : option bytes) : bool :=
  match a, b with None, None => true | Some x, Some y => same x y | _, _ => false end.
(** a C string, without the NUL at its end *)
Definition text (s : bytes) : Prop := Forall (fun c => 0 < c < 256) s.
Definition text_name (n : option bytes) : Prop := match n with None => True | Some s => text s end.

Record acfg := {
  a_type : bytes -> bool;                                        (* the section type exists *)
  a_sec : bytes -> option bytes -> bool;                         (* the section exists *)
  a_val : bytes -> option bytes -> bytes -> option (list bytes)  (* the values of an entry *)
}.
Definition a_empty : acfg := {| a_type := fun _ => false; a_sec := fun _ _ => false; a_val := fun _ _ _ => None |}.

Definition a_add (a : acfg) (t : bytes) (n : option bytes) : acfg :=
  {| a_type := fun t' => same t t' || a_type a t';
     a_sec := fun t' n' => (same t t' && same_name n n') || a_sec a t' n';
     a_val := a_val a |}.
Definition a_put (a : acfg) (t : bytes) (n : option bytes) (e : bytes) (v : option (list bytes)) : acfg :=
  {| a_type := a_type a; a_sec := a_sec a;
     a_val := fun t' n' e' => if same t t' && same_name n n' && same e e' then v else a_val a t' n' e' |}.
Definition a_drop_section (a : acfg) (t : bytes) (n : option bytes) : acfg :=
  {| a_type := a_type a;
     a_sec := fun t' n' => negb (same t t' && same_name n n') && a_sec a t' n';
     a_val := fun t' n' e' => if same t t' && same_name n n' then None else a_val a t' n' e' |}.
Definition a_drop_type (a : acfg) (t : bytes) : acfg :=
  {| a_type := fun t' => negb (same t t') && a_type a t';
     a_sec := fun t' n' => negb (same t t') && a_sec a t' n';
     a_val := fun t' n' e' => if same t t' then None else a_val a t' n' e' |}.
Fixpoint remove_first (v : bytes) (l : list bytes) : list bytes :=
  match l with [] => [] | x :: l' => if str_eqb x v then l' else x :: remove_first v l' end.
Definition values (v : option (list bytes)) : list bytes := match v with None => [] | Some l => l end.

(** an operation and its result *)
Definition a_step (a : acfg) (o : cop) : acfg * Z :=
  match o with
  | CAddSection t n => (a_add a t n, 0)
  | CSet t n e v append front =>
    let old := if append then values (a_val a t n e) else [] in
    (a_put (a_add a t n) t n e (Some (if front then v :: old else old ++ [v])), 0)
  | CRemoveType t => if a_type a t then (a_drop_type a t, 0) else (a, -1)
  | CRemoveSection t n => if a_sec a t n then (a_drop_section a t n, 0) else (a, -1)
  | CRemoveEntry t n e => match a_val a t n e with None => (a, -1) | Some _ => (a_put a t n e None, 0) end
  | CRemoveElement t n e v =>
    if existsb (fun x => str_eqb x v) (values (a_val a t n e)) then
      (a_put a t n e (match remove_first v (values (a_val a t n e)) with [] => None | l => Some l end), 0)
    else (a, -1)
  end.

(** a failed operation returns an error, and changes no section and no value *)
Definition unchanged (a a' : acfg) : Prop :=
  (forall t, a_type a t = true -> a_type a' t = true) /\
  (forall t n, a_sec a' t n = a_sec a t n) /\ (forall t n e, a_val a' t n e = a_val a t n e).
Inductive a_run : acfg -> list (mem * cop) -> list Z -> acfg -> Prop :=
| a_nil a : a_run a [] [] a
| a_done a m o a' r ops rs a'' : a_step a o = (a', r) -> a_run a' ops rs a'' -> a_run a ((m, o) :: ops) (r :: rs) a''
| a_failed a m o a' ops rs a'' : m <> all_mem -> unchanged a a' -> a_run a' ops rs a'' ->
    a_run a ((m, o) :: ops) (-1 :: rs) a''.

(** what can be read from the database of the code *)
Definition reads (db : cfgdb) (t : bytes) (n : option bytes) (e : bytes) : option (option (list bytes)) :=
  match find_entry db t n e with
  | None => Some None
  | Some v => match strings v with None => None | Some l => Some (Some l) end
  end.
Definition agrees (db : cfgdb) (a : acfg) : Prop :=
  (forall t, text t -> (if t_find db (Some t) then true else false) = a_type a t) /\
  (forall t n, text t -> text_name n -> (if find_section db t n then true else false) = a_sec a t n) /\
  (forall t n e, text t -> text_name n -> text e -> reads db t n e = Some (a_val a t n e)).

Definition op_text (o : cop) : Prop :=
  match o with
  | CAddSection t n | CRemoveSection t n => text t /\ text_name n
  | CRemoveType t => text t
  | CRemoveEntry t n e => text t /\ text_name n /\ text e
  | CSet t n e v _ _ | CRemoveElement t n e v => text t /\ text_name n /\ text e /\ text v
  end.
(** no memory problem while a value is replaced *)
Definition no_lost (m : mem) (o : cop) : Prop :=
  match o with CSet _ _ _ _ false _ => ok_value m = true | _ => True end.

(** a lookup: the section itself, then the section without a name *)
Definition a_lookup (a : acfg) (t : bytes) (n : option bytes) (e : bytes) : option (list bytes) :=
  match a_val a t n e with Some v => Some v | None => a_val a t None e end.

(** the result of copying (a part of) a database into another one *)
Definition chosen (filter : option bytes) (n : option bytes) : bool :=
  match filter with None => true | Some f => same_name n (Some f) end.
Definition a_copy_sec (dst src : acfg) (ft fn : option bytes) (t : bytes) (n : option bytes) : bool :=
  a_sec dst t n || (chosen ft (Some t) && chosen fn n && a_sec src t n).
Definition a_copy_val (dst src : acfg) (ft fn fe : option bytes) (t : bytes) (n : option bytes) (e : bytes) : option (list bytes) :=
  if chosen ft (Some t) && chosen fn n && chosen fe (Some e) then
    match a_val src t n e with None => a_val dst t n e | Some l => Some (values (a_val dst t n e) ++ l) end
  else a_val dst t n e.
