(** Model of the kernel route handling of OLSRv2
    (src/olsrv2/olsrv2/olsrv2_routing.c) on top of os_routing
    (src/base/os_linux/os_routing_linux.c), for one routing domain. *)
From Verif Require Import Base DijkstraModel.

(** Linux error numbers ESRCH and EEXIST (errno.h). *)
Definition ESRCH : Z := 3.
Definition EEXIST : Z := 17.

(** struct olsrv2_routing_domain (include/oonf/olsrv2/olsrv2/olsrv2_routing.h:151-166).
    The field source_specific has no influence on the routes of the kernel
    and is left out. *)
Record rdomain := RDomain { rd_table : Z; rd_proto : Z; rd_metric : Z; rd_srcip : bool }.
Definition rdomain_eqb (a b : rdomain) : bool :=
  (rd_table a =? rd_table b) && (rd_proto a =? rd_proto b) && (rd_metric a =? rd_metric b) &&
  Bool.eqb (rd_srcip a) (rd_srcip b).

(** memcmp of two struct os_route_parameter with the same key. *)
Definition rparam_eqb (a b : rparam) : bool :=
  (p_if a =? p_if b) && (p_gw a =? p_gw b) && (p_metric a =? p_metric b) &&
  (p_table a =? p_table b) && (p_proto a =? p_proto b) && (p_srcip a =? p_srcip b).

(** A routing filter (olsrv2_routing.h:171-183): gets key, parameters and the
    set flag, returns its verdict and the modified parameters.  A filter
    which modifies the key is not modelled. *)
Definition rfilter := Z -> rparam -> bool -> bool * rparam.

(** The state: routing tree, dijkstra nodes, the routes this daemon has in
    the kernel, the answers of the kernel which have not been delivered yet
    (_rtnetlink_feedback with the error number to come), all requests sent so
    far (true: set), domain parameters, filters, _domain_changed,
    _initiate_shutdown, _freeze_routes (olsrv2_routing.c:111-131).

    The kernel executes netlink requests in the order they are sent, so their
    effect is modelled when they are sent; the answer arrives later. *)
Record rstate := RState {
  s_tab : list rentry; s_dn : target -> dnode;
  s_kern : list (Z * rparam); s_pend : list (Z * Z); s_sent : list (Z * bool * rparam);
  s_dom : rdomain; s_flt : list rfilter;
  s_changed : bool; s_shut : bool; s_freeze : bool }.

Definition with_tab (s : rstate) (l : list rentry) : rstate :=
  RState l (s_dn s) (s_kern s) (s_pend s) (s_sent s) (s_dom s) (s_flt s)
    (s_changed s) (s_shut s) (s_freeze s).

(** RTM_NEWROUTE with NLM_F_CREATE|NLM_F_REPLACE (os_routing_linux.c:226-229):
    a route to the same destination in the same table with the same metric is
    replaced. *)
Definition kernel_set (k : Z) (p : rparam) (l : list (Z * rparam)) : list (Z * rparam) :=
  (k, p) :: filter (fun x => negb ((fst x =? k) && (p_table (snd x) =? p_table p) &&
                                   (p_metric (snd x) =? p_metric p))) l.

(** RTM_DELROUTE (os_routing_linux.c:230-243): removes the route with the same
    destination, table, metric, gateway and interface (protocol and source
    address are cleared in the request), otherwise ESRCH. *)
Definition kernel_match (k : Z) (p : rparam) (x : Z * rparam) : bool :=
  (fst x =? k) && (p_table (snd x) =? p_table p) && (p_metric (snd x) =? p_metric p) &&
  (p_gw (snd x) =? p_gw p) && (p_if (snd x) =? p_if p).
Definition kernel_del (k : Z) (p : rparam) (l : list (Z * rparam)) : list (Z * rparam) * Z :=
  if existsb (kernel_match k p) l
  then (filter (fun x => negb (kernel_match k p x)) l, 0)
  else (l, ESRCH).

(** os_routing_set (os_routing_linux.c:203-271).  [kerr] tells what happens to
    the request for a key: 0 the kernel tries to execute it, -1 no message can
    be built and the function fails, other numbers: the kernel refuses with
    this error. *)
Definition os_routing_set (kerr : Z -> Z) (s : rstate) (k : Z) (set : bool) (p : rparam) : rstate :=
  let c := kerr k in
  if c =? -1 then s
  else
    let '(kern, err) :=
      if c =? 0
      then if set then (kernel_set k p (s_kern s), 0) else kernel_del k p (s_kern s)
      else (s_kern s, c) in
    RState (s_tab s) (s_dn s) kern (s_pend s ++ [(k, err)]) (s_sent s ++ [(k, set, p)])
      (s_dom s) (s_flt s) (s_changed s) (s_shut s) (s_freeze s).

(** _remove_entry (olsrv2_routing.c:556-565).  The callers never have a
    request outstanding for the entry, so there is nothing to interrupt. *)
Definition remove_entry (l : list rentry) (k : Z) : list rentry :=
  filter (fun e => negb (re_key e =? k)) l.

Definition set_flags (e : rentry) (set proc : bool) : rentry :=
  REntry (re_key e) (re_cost e) (re_hops e) (re_orig e) (re_next e) (re_last e)
    set proc (re_old e) (re_p e).

(** _add_route_to_kernel_queue (olsrv2_routing.c:1014-1045).  The queue holds
    the keys of the entries. *)
Definition add_to_queue (q : list Z) (e : rentry) : list Z :=
  if re_set e
  then if p_gw (re_p e) =? 0 then re_key e :: q else q ++ [re_key e]
  else if p_gw (re_p e) =? 0 then q ++ [re_key e] else re_key e :: q.

(** _process_dijkstra_result (olsrv2_routing.c:1052-1099): the changes of one
    entry (1066-1093).  The verdict of the filters is evaluated, but the
    continue statement only continues the loop over the filters. *)
Definition finish_entry (ev : env) (dom : rdomain) (flt : list rfilter) (e : rentry) : rentry :=
  let p := re_p e in
  let src := if re_set e && rd_srcip dom && (ev_fam ev (ev_dst ev (re_key e)) =? AF_INET)
             then ev_originator ev AF_INET else p_srcip p in
  let p1 := RParam (p_if p) (p_gw p) (rd_metric dom) (rd_table dom) (rd_proto dom) src in
  let better := match ev_lan ev (re_key e) with
                | Some (active, metric) => active && (metric <? re_cost e)
                | None => false
                end in
  let set := if better then false else re_set e in
  let p2 := fold_left (fun q f => snd (f (re_key e) q set)) flt p1 in
  REntry (re_key e) (re_cost e) (re_hops e) (re_orig e) (re_next e) (re_last e)
    set (re_proc e) (re_old e) p2.

(** ... the decision whether something changed (1094-1098) ... *)
Definition unchanged (e : rentry) : bool :=
  re_set e && match re_old e with Some p => rparam_eqb p (re_p e) | None => false end.

(** ... and the loop over the tree. *)
Definition process_dijkstra_result (ev : env) (dom : rdomain) (flt : list rfilter)
    (l : list rentry) : list rentry * list Z :=
  let l' := map (finish_entry ev dom flt) l in
  (l', fold_left (fun q e => if unchanged e then q else add_to_queue q e) l' []).

(** _process_kernel_queue (olsrv2_routing.c:1104-1133).  Every key in the
    queue has an entry, nothing is removed in between. *)
Definition process_queued (kerr : Z -> Z) (s : rstate) (k : Z) : rstate :=
  match find_entry (s_tab s) k with
  | None => s
  | Some e =>
      if re_proc e then s
      else os_routing_set kerr (with_tab s (put_entry (s_tab s) (set_flags e (re_set e) true)))
             k (re_set e) (re_p e)
  end.
Definition process_kernel_queue (kerr : Z -> Z) (s : rstate) (q : list Z) : rstate :=
  fold_left (process_queued kerr) q s.

(** _cb_route_finished (olsrv2_routing.c:1154-1197) *)
Definition route_finished (s : rstate) (k err : Z) : rstate :=
  match find_entry (s_tab s) k with
  | None => s
  | Some e =>
      let keep set := with_tab s (put_entry (s_tab s) (set_flags e set false)) in
      let remove := with_tab s (remove_entry (s_tab s) k) in
      if negb (re_set e) && (err =? ESRCH) then remove
      else if negb (err =? 0) then
        if err =? -1 then keep (re_set e)
        else if (err =? EEXIST) && re_set e then keep true
        else if re_set e then remove
        else keep true
      else if re_set e then keep true
      else remove
  end.

(** The route leaves _rtnetlink_feedback (_routing_finished,
    os_routing_linux.c:368-375). *)
Definition drop_pending (s : rstate) (k : Z) : rstate :=
  RState (s_tab s) (s_dn s) (s_kern s) (filter (fun x => negb (fst x =? k)) (s_pend s)) (s_sent s)
    (s_dom s) (s_flt s) (s_changed s) (s_shut s) (s_freeze s).

(** _cb_rtnetlink_error and _cb_rtnetlink_done (os_routing_linux.c:666-716):
    the answer of the kernel for a route. *)
Definition answer (s : rstate) (k : Z) : rstate :=
  match find (fun x => fst x =? k) (s_pend s) with
  | None => s
  | Some (_, err) => route_finished (drop_pending s k) k err
  end.

(** os_routing_interrupt (os_routing_linux.c:316-320) with the callback set. *)
Definition interrupt (s : rstate) (k : Z) : rstate :=
  match find (fun x => fst x =? k) (s_pend s) with
  | None => s
  | Some _ => route_finished (drop_pending s k) k (-1)
  end.

(** _cb_rtnetlink_timeout (os_routing_linux.c:687-696) *)
Definition timeout (s : rstate) : rstate := fold_left interrupt (map fst (s_pend s)) s.

(** olsrv2_routing_force_update (olsrv2_routing.c:303-376) without the rate
    limitation timer.  [None]: the calculation faults. *)
Definition force_update (ev : env) (tp : topo) (nbs : list neigh) (kerr : Z -> Z)
    (s : rstate) : option rstate :=
  if s_shut s || s_freeze s then Some s
  else if negb (s_changed s) then Some s
  else
    obind (calculate_routes ev tp nbs (s_dn s) (s_tab s)) (fun r =>
    let '(l, f) := r in
    let '(l', q) := process_dijkstra_result ev (s_dom s) (s_flt s) l in
    Some (process_kernel_queue kerr
            (RState l' f (s_kern s) (s_pend s) (s_sent s) (s_dom s) (s_flt s)
               false (s_shut s) (s_freeze s)) q)).

(** olsrv2_routing_set_domain_parameter (olsrv2_routing.c:394-430): one
    iteration of the loop (413-425) ... *)
Definition reset_entry (sq : rstate * list Z) (k : Z) : rstate * list Z :=
  let '(s, q) := sq in
  match find_entry (s_tab s) k with
  | None => sq
  | Some e =>
      if re_set e then
        let s1 := with_tab s (put_entry (s_tab s) (set_flags e false (re_proc e))) in
        let s2 := if re_proc e then interrupt s1 k else s1 in
        (s2, add_to_queue q (set_flags e false false))
      else sq
  end.

(** ... and the whole function.  It triggers an update, but does not set
    _domain_changed. *)
Definition set_domain_parameter (dom : rdomain) (kerr : Z -> Z) (s : rstate) : rstate :=
  if rdomain_eqb dom (s_dom s) then s
  else
    let s0 := RState (s_tab s) (s_dn s) (s_kern s) (s_pend s) (s_sent s) dom (s_flt s)
                (s_changed s) (s_shut s) (s_freeze s) in
    let '(s1, q) := fold_left reset_entry (map re_key (s_tab s0)) (s0, []) in
    process_kernel_queue kerr s1 q.

(** olsrv2_routing_initiate_shutdown (olsrv2_routing.c:166-190): one
    iteration (176-186): the callback is disabled while the request is
    interrupted, so in_processing keeps its value ... *)
Definition shutdown_entry (sq : rstate * list Z) (k : Z) : rstate * list Z :=
  let '(s, q) := sq in
  match find_entry (s_tab s) k with
  | None => sq
  | Some e =>
      let s1 := drop_pending s k in
      if re_set e then
        (with_tab s1 (put_entry (s_tab s1) (set_flags e false (re_proc e))),
         add_to_queue q (set_flags e false (re_proc e)))
      else (s1, q)
  end.
Definition shutdown (kerr : Z -> Z) (s : rstate) : rstate :=
  let s0 := RState (s_tab s) (s_dn s) (s_kern s) (s_pend s) (s_sent s) (s_dom s) (s_flt s)
              (s_changed s) true false in
  let '(s1, q) := fold_left shutdown_entry (map re_key (s_tab s0)) (s0, []) in
  process_kernel_queue kerr s1 q.

(** Everything that can happen. *)
Inductive rop :=
| RUpdate (ev : env) (tp : topo) (nbs : list neigh) (kerr : Z -> Z)
| RAnswer (k : Z)
| RTimeout
| RParams (dom : rdomain) (kerr : Z -> Z)
| RShutdown (kerr : Z -> Z)
| RFreeze (b : bool)
| RChanged.

(** olsrv2_routing_freeze_routes (olsrv2_routing.c:256-267) and
    olsrv2_routing_domain_changed (283-296) only set flags. *)
Definition rstep (s : rstate) (o : rop) : option rstate :=
  match o with
  | RUpdate ev tp nbs kerr => force_update ev tp nbs kerr s
  | RAnswer k => Some (answer s k)
  | RTimeout => Some (timeout s)
  | RParams dom kerr => Some (set_domain_parameter dom kerr s)
  | RShutdown kerr => Some (shutdown kerr s)
  | RFreeze b => Some (RState (s_tab s) (s_dn s) (s_kern s) (s_pend s) (s_sent s) (s_dom s) (s_flt s)
                         (s_changed s) (s_shut s) b)
  | RChanged => Some (RState (s_tab s) (s_dn s) (s_kern s) (s_pend s) (s_sent s) (s_dom s) (s_flt s)
                         true (s_shut s) (s_freeze s))
  end.

Fixpoint rrun (s : rstate) (os : list rop) : option rstate :=
  match os with
  | [] => Some s
  | o :: os' => obind (rstep s o) (fun s' => rrun s' os')
  end.

(** olsrv2_routing_init (olsrv2_routing.c:137-160). *)
Definition rinit (dom : rdomain) (flt : list rfilter) : rstate :=
  RState [] (fun _ => DNode 0 0 0 None false 0 false false) [] [] [] dom flt false false false.
