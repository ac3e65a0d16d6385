(** Model of the route modifier plugin: src/olsrv2/route_modifier/route_modifier.c, as a filter of
    RouteModel.v.

    Simplifications: the tree is a list in the order of the names (AvlModel.v); the conversion of a section
    succeeds (sections are validated before, SchemaModel.v); memory for modifiers is there; an address filter is the set of route keys
    it accepts; removing a node that is in no tree is the outcome [Bad]. *)
From Verif Require Import Base DijkstraModel RouteModel.

(** route_modifier.c:69-93 [struct _routemodifier] *)
Record mconf := { m_domain : Z; m_accepts : Z -> bool; m_plen : Z; m_table : Z; m_proto : Z; m_dist : Z }.
Record modifier := { m_name : bytes; m_conf : mconf }.
Definition blank : mconf := {| m_domain := 0; m_accepts := fun _ => false; m_plen := 0; m_table := 0; m_proto := 0; m_dist := 0 |}.

(** [avl_comp_strcasecmp], src/libcommon/avl_comp.c:164-167 *)
Definition tolower (b : Z) : Z := if (65 <=? b) && (b <=? 90) then b + 32 else b.
Fixpoint ltb (a b : list Z) : bool :=
  match a, b with
  | _, [] => false
  | [], _ :: _ => true
  | x :: r, y :: q => (x <? y) || ((x =? y) && ltb r q)
  end.
Fixpoint eqb (a b : list Z) : bool :=
  match a, b with [], [] => true | x :: r, y :: q => (x =? y) && eqb r q | _, _ => false end.
Definition name_ltb (a b : bytes) : bool := ltb (map tolower a) (map tolower b).
Definition name_eqb (a b : bytes) : bool := eqb (map tolower a) (map tolower b).

Definition tree := list modifier.
Definition get (t : tree) (n : bytes) : option modifier := find (fun m => name_eqb (m_name m) n) t.
(** [avl_insert] of a key that is not there *)
Fixpoint put (m : modifier) (t : tree) : tree :=
  match t with
  | [] => [m]
  | x :: r => if name_ltb (m_name m) (m_name x) then m :: t else x :: put m r
  end.
(** [strscpy] to the field name, route_modifier.c:71, 260 *)
Definition cut (n : bytes) : bytes := firstn 15 n.

(** route_modifier.c:245-265 [_get_modifier]: the tree, the modifier, and whether it is in the tree *)
Definition get_modifier (t : tree) (n : bytes) : tree * modifier * bool :=
  match get t n with
  | Some m => (t, m, true)
  | None =>
    let m := {| m_name := cut n; m_conf := blank |} in
    match get t (cut n) with
    | Some _ => (t, m, false)
    | None => (put m t, m, true)
    end
  end.
Inductive res := Ok (t : tree) | Bad.
(** route_modifier.c:281-307 [_cb_cfg_changed] for the section [n]; [None]: it was removed *)
Definition cfg_changed (t : tree) (n : bytes) (post : option mconf) : res :=
  let '(t, m, inside) := get_modifier t n in
  match post with
  | None => if inside then Ok (filter (fun x => negb (name_eqb (m_name x) (m_name m))) t) else Bad
  | Some c =>
    Ok (if inside then map (fun x => if name_eqb (m_name x) (m_name m) then {| m_name := m_name x; m_conf := c |} else x) t else t)
  end.
Fixpoint configure (t : tree) (os : list (bytes * option mconf)) : res :=
  match os with
  | [] => Ok t
  | (n, p) :: r => match cfg_changed t n p with Ok t => configure t r | Bad => Bad end
  end.

(** route_modifier.c:196-238 [_cb_rt_filter] for the domain [d]; [plen]: the prefix length of the destination of a key *)
Definition matches (plen : Z -> Z) (d k : Z) (c : mconf) : bool :=
  (d =? m_domain c) && ((m_plen c =? -1) || (m_plen c =? plen k)) && m_accepts c k.
Definition modify (c : mconf) (p : rparam) : rparam :=
  RParam (p_if p) (p_gw p) (if m_dist c =? 0 then p_metric p else m_dist c)
    (if m_table c =? 0 then p_table p else m_table c) (if m_proto c =? 0 then p_proto p else m_proto c) (p_srcip p).
Definition rt_filter (plen : Z -> Z) (t : tree) (d : Z) : rfilter := fun k p _ =>
  (true, match find (fun m => matches plen d k (m_conf m)) t with Some m => modify (m_conf m) p | None => p end).
