(** What is expected of the routes in the kernel. *)
From Verif Require Import Base DijkstraModel DijkstraSpec RouteModel.

(** A routing filter that drops nothing and depends, like the route_modifier
    plugin, only on the destination: it may replace table, metric and
    protocol.  [fixed_filters]: this is true of all of them. *)
Definition apply_filters (flt : list rfilter) (k : Z) (p : rparam) (set : bool) : rparam :=
  fold_left (fun q f => snd (f k q set)) flt p.
Definition fixed_filters (flt : list rfilter) : Prop :=
  forall k p q set set',
    p_table p = p_table q -> p_metric p = p_metric q -> p_proto p = p_proto q ->
    let p' := apply_filters flt k p set in let q' := apply_filters flt k q set' in
    p_if p' = p_if p /\ p_gw p' = p_gw p /\ p_srcip p' = p_srcip p /\
    p_table p' = p_table q' /\ p_metric p' = p_metric q' /\ p_proto p' = p_proto q'.

(** The parameters a computed route must have in the kernel: interface and
    gateway as computed, the parameters of the domain, the own originator as
    source address if this is wanted and the route is an IPv4 route. *)
Definition kernel_param (ev : env) (dom : rdomain) (flt : list rfilter) (e : rentry) : rparam :=
  apply_filters flt (re_key e)
    (RParam (p_if (re_p e)) (p_gw (re_p e)) (rd_metric dom) (rd_table dom) (rd_proto dom)
       (if rd_srcip dom && (ev_fam ev (ev_dst ev (re_key e)) =? AF_INET)
        then ev_originator ev AF_INET else 0)) true.

(** The kernel has exactly the routes marked as set. *)
Definition in_sync (s : rstate) : Prop :=
  forall k p, In (k, p) (s_kern s) <->
    exists e, In e (s_tab s) /\ re_key e = k /\ re_set e = true /\ re_p e = p.

(** No answer of the kernel is outstanding. *)
Definition settled (s : rstate) : Prop := s_pend s = [].

(** Calm executions: the kernel executes what it is asked for, all answers
    arrive, and before routes are calculated or the parameters are changed all
    earlier requests have been answered.  Answers may come in any order.
    [v4] tells which route keys are IPv4 routes. *)
Definition accepting : Z -> Z := fun _ => 0.
Inductive calm (v4 : Z -> bool) : rstate -> rop -> Prop :=
| calm_update s ev tp nbs : settled s -> topo_ok ev tp ->
    (forall k, (ev_fam ev (ev_dst ev k) =? AF_INET) = v4 k) ->
    calm v4 s (RUpdate ev tp nbs accepting)
| calm_answer s k : calm v4 s (RAnswer k)
| calm_params s dom : settled s -> calm v4 s (RParams dom accepting)
| calm_shutdown s : settled s -> calm v4 s (RShutdown accepting)
| calm_freeze s b : calm v4 s (RFreeze b)
| calm_changed s : calm v4 s RChanged.

Inductive calm_reach (v4 : Z -> bool) (dom : rdomain) (flt : list rfilter) : rstate -> Prop :=
| cr_init : calm_reach v4 dom flt (rinit dom flt)
| cr_step s o s' : calm_reach v4 dom flt s -> calm v4 s o -> rstep s o = Some s' ->
    calm_reach v4 dom flt s'.

(** Is a request of the kind that must go first: direct routes are set early,
    routes with a gateway are removed early? *)
Definition early (r : Z * bool * rparam) : bool :=
  let '(_, set, p) := r in if set then p_gw p =? 0 else negb (p_gw p =? 0).
