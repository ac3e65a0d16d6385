(** Model of the LAN import plugin: src/olsrv2/lan_import/lan_import.c.

    Simplifications: route keys (destination and source prefix), interfaces and section names are numbers (interface 0: none; names of at
    most 15 characters); whether a destination is a multicast, linklocal or loopback one is part of the route; the name of the interface
    of a route is known; domains are their extension numbers.  The attached networks of the router are the list of active
    (domain, key, metric, distance) (olsrv2_lan.c, TcwModel.v); what is left
    of inactive ones does not matter.  Memory for new objects is there, and the conversion of a section succeeds.
    The answers to the query of all routes (line 615) are events of the environment.  Objects have numbers that are never used again; the
    outcome [Bad] is the access to an object that has been freed. *)
From Verif Require Import Base CodecModel.

Record route := { r_key : Z; r_plen : Z; r_special : bool; r_unicast : bool; r_table : Z; r_proto : Z; r_metric : Z; r_if : Z }.
(** lan_import.c:72-108 [struct _import_entry]: the configuration *)
Record conf := { c_domain : Z; c_accepts : Z -> bool; c_plen : Z; c_if : Z; c_table : Z; c_proto : Z; c_dist : Z; c_metric : Z; c_aging : Z }.
Record import := { i_id : Z; i_name : Z; i_conf : conf }.
(** lan_import.c:110-120 [struct _imported_lan]; the tree of an import has the ones with its number *)
Record lan := { l_id : Z; l_imp : Z; l_key : Z }.
Record st := { s_imps : list import; s_lans : list lan; s_timers : list Z; s_ann : list (Z * Z * Z * Z); s_next : Z }.
Definition init : st := {| s_imps := []; s_lans := []; s_timers := []; s_ann := []; s_next := 0 |}.

(** the router around the plugin: its domains, table and protocol of the routes of each, its mesh interfaces *)
Record env := { e_doms : list Z; e_own : list (Z * Z); e_mesh : Z -> bool }.

(** olsrv2_lan.c:105-155 [olsrv2_lan_add], 162-184 [olsrv2_lan_remove] *)
Definition drop (d k : Z) (a : list (Z * Z * Z * Z)) : list (Z * Z * Z * Z) :=
  filter (fun x => match x with (d', k', _, _) => negb ((d' =? d) && (k' =? k)) end) a.
Definition lan_add (d k m x : Z) (a : list (Z * Z * Z * Z)) : list (Z * Z * Z * Z) := (d, k, m, x) :: drop d k a.
Definition covers (c : conf) (d : Z) : bool := (c_domain c =? -1) || (c_domain c =? d).

(** lan_import.c:307-327 [_is_allowed_to_import] *)
Definition allowed (e : env) (r : route) : bool :=
  negb (existsb (fun x => (snd x =? r_proto r) && (fst x =? r_table r)) (e_own e)) && negb (e_mesh e (r_if r)).
(** lan_import.c:346-365: the checks before the loop *)
Definition eligible (e : env) (r : route) : bool := negb (r_special r) && r_unicast r && allowed e r.
(** lan_import.c:376-415: the checks in the loop *)
Definition fits (c : conf) (r : route) : bool :=
  ((c_plen c =? -1) || (c_plen c =? r_plen r)) && c_accepts c (r_key r) && ((c_table c =? -1) || (c_table c =? r_table r)) &&
  ((c_proto c =? -1) || (c_proto c =? r_proto r)) && ((c_dist c =? -1) || (c_dist c =? r_metric r)) &&
  ((c_if c =? 0) || (negb (r_if r =? 0) && (c_if c =? r_if r))).

Definition is_lan (i k : Z) (l : lan) : bool := (l_imp l =? i) && (l_key l =? k).
(** lan_import.c:485-514 [_add_lan]: the state and the number of the object *)
Definition add_lan (e : env) (s : st) (i : import) (k dist : Z) : st * Z :=
  match find (is_lan (i_id i) k) (s_lans s) with
  | Some l => (s, l_id l)
  | None =>
    ({| s_imps := s_imps s; s_lans := {| l_id := s_next s; l_imp := i_id i; l_key := k |} :: s_lans s; s_timers := s_timers s;
        s_ann := fold_left (fun a d => if covers (i_conf i) d then lan_add d k (c_metric (i_conf i)) dist a else a) (e_doms e) (s_ann s);
        s_next := s_next s + 1 |}, s_next s)
  end.
(** lan_import.c:516-528 [_destroy_lan] for an object of the tree of [i]; its timer is not stopped *)
Definition destroy_lan (e : env) (s : st) (i : import) (l : lan) : st :=
  {| s_imps := s_imps s; s_lans := filter (fun x => negb (l_id x =? l_id l)) (s_lans s); s_timers := s_timers s;
     s_ann := fold_left (fun a d => if covers (i_conf i) d then drop d (l_key l) a else a) (e_doms e) (s_ann s); s_next := s_next s |}.
(** [oonf_timer_set] *)
Definition start (s : st) (t : Z) : st :=
  {| s_imps := s_imps s; s_lans := s_lans s; s_timers := t :: filter (fun x => negb (x =? t)) (s_timers s); s_ann := s_ann s; s_next := s_next s |}.
(** lan_import.c:417-441 *)
Definition one_event (e : env) (r : route) (set : bool) (s : st) (i : import) : st :=
  if fits (i_conf i) r then
    if set then
      let m := if r_metric r <? 1 then 1 else r_metric r in
      let m := if m >? 255 then 255 else m in
      let '(s, t) := add_lan e s i (r_key r) m in
      if c_aging (i_conf i) =? 0 then s else start s t
    else match find (is_lan (i_id i) (r_key r)) (s_lans s) with Some l => destroy_lan e s i l | None => s end
  else s.
(** lan_import.c:334-443 [_cb_rt_event] *)
Definition rt_event (e : env) (s : st) (r : route) (set : bool) : st :=
  if eligible e r then fold_left (one_event e r set) (s_imps s) s else s.

(** lan_import.c:530-553 [_cb_metric_aging] of the object [t] *)
Definition older (m : Z) : Z := if m >=? METRIC_MAX / 2 then METRIC_MAX else m * 2.
Inductive res := Ok (s : st) | Bad.
Definition aging (e : env) (s : st) (t : Z) : res :=
  match find (fun l => l_id l =? t) (s_lans s) with
  | None => Bad
  | Some l =>
    match find (fun i => i_id i =? l_imp l) (s_imps s) with
    | None => if existsb (fun x => match x with (_, k, _, _) => k =? l_key l end) (s_ann s) then Bad else Ok s
    | Some i =>
      let hit x := match x with (d, k, _, _) => (k =? l_key l) && covers (i_conf i) d && existsb (Z.eqb d) (e_doms e) end in
      let full := existsb (fun x => hit x && match x with (_, _, m, _) => m >=? METRIC_MAX / 2 end) (s_ann s) in
      Ok {| s_imps := s_imps s; s_lans := s_lans s;
            s_timers := if full then filter (fun x => negb (x =? t)) (s_timers s) else s_timers s;
            s_ann := map (fun x => if hit x then match x with (d, k, m, n) => (d, k, older m, n) end else x) (s_ann s);
            s_next := s_next s |}
    end
  end.

(** a new import comes to its place in the order of the names *)
Fixpoint put (i : import) (l : list import) : list import :=
  match l with [] => [i] | x :: r => if i_name i <? i_name x then i :: l else x :: put i r end.
(** lan_import.c:450-472 [_get_import], 478-483 [_destroy_import], 578-617 [_cb_cfg_changed]; [None]: the section was removed *)
Definition cfg_changed (s : st) (n : Z) (post : option conf) : st :=
  let old := existsb (fun i => i_name i =? n) (s_imps s) in
  match post with
  | None => {| s_imps := filter (fun i => negb (i_name i =? n)) (s_imps s); s_lans := s_lans s; s_timers := s_timers s; s_ann := s_ann s;
               s_next := s_next s |}
  | Some c =>
    {| s_imps := if old then map (fun i => if i_name i =? n then {| i_id := i_id i; i_name := n; i_conf := c |} else i) (s_imps s)
                 else put {| i_id := s_next s; i_name := n; i_conf := c |} (s_imps s);
       s_lans := s_lans s; s_timers := s_timers s; s_ann := s_ann s; s_next := if old then s_next s else s_next s + 1 |}
  end.

Inductive op := Event (r : route) (set : bool) | Timer (t : Z) | Section (n : Z) (post : option conf).
(** a timer that does not run does not fire *)
Definition step (e : env) (s : st) (o : op) : res :=
  match o with
  | Event r set => Ok (rt_event e s r set)
  | Timer t => if existsb (Z.eqb t) (s_timers s) then aging e s t else Ok s
  | Section n p => Ok (cfg_changed s n p)
  end.
Fixpoint run (e : env) (s : st) (os : list op) : res :=
  match os with [] => Ok s | o :: r => match step e s o with Ok s => run e s r | Bad => Bad end end.
