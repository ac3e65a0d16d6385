(** C51, C52, C60-C62: from computed routes to routes in the kernel. *)
From Verif Require Import Base DijkstraModel DijkstraSpec DijkstraProofs DijkstraTable DijkstraNear DijkstraProps
  RouteModel RouteSpec RouteProofs.

(** * Examples: one neighbor [2], with a direct route; or two *)
Definition nb2 : neigh := Neigh 2 1 10 10 7 2 [2] [].
Definition tp2 : topo := Topo [TcNode 2 false false [TcEdge 3 10 false] []; TcNode 3 false false [] []] [].
Definition tp2' : topo := Topo [TcNode 2 false false [] []; TcNode 3 false false [] []] [].
Definition dom1 : rdomain := RDomain 254 100 2 false.
Definition dom2 : rdomain := RDomain 99 100 2 true.
Lemma tp2_ok : topo_ok ex_env tp2.
Proof. apply topo_okb_ok. reflexivity. Qed.
Lemma tp2'_ok : topo_ok ex_env tp2'.
Proof. apply topo_okb_ok. reflexivity. Qed.
Definition upd (nbs : list neigh) : rop := RUpdate ex_env tp2 nbs accepting.

(** Does the kernel execute all requests of an execution? *)
Definition all_accepting (os : list rop) : Prop :=
  forall o, In o os -> match o with
                       | RUpdate _ _ _ c | RParams _ c | RShutdown c => c = accepting
                       | _ => True
                       end.
Ltac check_accepting := intros o Ho; repeat (destruct Ho as [<-|Ho]; [exact I || reflexivity|]); destruct Ho.

(** * C52 *)

(** Full statement: whenever no kernel request is outstanding, the kernel has
    exactly the routes marked as set.  Proved for calm executions; without
    this restriction it is false, see the refutations below. *)
Theorem C52_kernel_in_sync_partial : forall v4 dom flt s,
  fixed_filters flt -> calm_reach v4 dom flt s -> settled s -> in_sync s.
Proof. intros v4 dom flt s FX R _. apply (inv_sync v4 flt). now apply (calm_inv v4 flt FX dom). Qed.

(** An update in a calm execution puts exactly the computed routes into the
    kernel, with the computed interface and gateway and the parameters of the
    domain. *)
Theorem C52_update_installs_partial : forall v4 dom flt s ev tp nbs l f,
  fixed_filters flt -> calm_reach v4 dom flt s -> settled s ->
  s_shut s = false -> s_freeze s = false -> s_changed s = true ->
  topo_ok ev tp -> (forall k, (ev_fam ev (ev_dst ev k) =? AF_INET) = v4 k) ->
  calculate_routes ev tp nbs (s_dn s) (s_tab s) = Some (l, f) ->
  exists s', rstep s (RUpdate ev tp nbs accepting) = Some s' /\
    forall k p, In (k, p) (s_kern s') <->
      exists e, In e l /\ re_key e = k /\ re_set e = true /\ p = kernel_param ev (s_dom s) (s_flt s) e.
Proof.
  intros v4 dom flt s ev tp nbs l f FX R Q S F C TK V4 E.
  destruct (update_inv v4 flt FX s ev tp nbs (calm_inv v4 flt FX dom s R) Q TK V4) as (s' & E' & _ & H).
  exists s'. split; [exact E'|]. apply (H (ltac:(now rewrite S, F)) C l f E).
Qed.

Definition v4_ex (k : Z) : bool := k <? 1000.
Lemma v4_ok : forall k, (ev_fam ex_env (ev_dst ex_env k) =? AF_INET) = v4_ex k.
Proof. intros k. cbn. unfold v4_ex. now destruct (k <? 1000). Qed.

(** A filter like the route_modifier plugin: it moves the route to 3 to
    another table. *)
Definition mod3 : rfilter := fun k p _ =>
  (true, if k =? 3 then RParam (p_if p) (p_gw p) (p_metric p) 55 (p_proto p) (p_srcip p) else p).

Lemma mod3_fixed : fixed_filters [mod3].
Proof.
  intros k p q set set' H1 H2 H3. unfold apply_filters. cbn [fold_left mod3 snd].
  destruct (k =? 3); cbn; repeat split; auto.
Qed.

(** A calm execution: two routes are set, answered in reverse order, one is
    removed and the other one moved to a gateway... *)
Example C52_ex :
  exists s, fixed_filters [mod3] /\ calm_reach v4_ex dom1 [mod3] s /\ settled s /\
    s_kern s = [(3, RParam 7 2 2 55 100 0); (2, RParam 7 0 2 254 100 0)] /\ s_changed s = true /\
    exists s', rstep s (RUpdate ex_env tp2' [nb2] accepting) = Some s' /\
      s_kern s' = [(2, RParam 7 0 2 254 100 0)] /\ s_pend s' = [(3, 0)].
Proof.
  destruct (rrun (rinit dom1 [mod3]) [RChanged; upd [nb2]; RAnswer 3; RAnswer 2; RChanged]) as [s|] eqn:E;
    [|vm_compute in E; discriminate].
  exists s. split; [exact mod3_fixed|]. split.
  { cbn [rrun] in E.
    repeat match type of E with
    | obind (rstep ?a ?b) _ = _ => let x := fresh "s" in let H := fresh "E" in
        destruct (rstep a b) as [x|] eqn:H; [cbn [obind] in E|discriminate] end.
    injection E as <-.
    eapply cr_step; [|apply calm_changed|exact E4].
    eapply cr_step; [|apply calm_answer|exact E3].
    eapply cr_step; [|apply calm_answer|exact E2].
    eapply cr_step; [|apply calm_update; [|apply tp2_ok|apply v4_ok]|exact E1].
    - eapply cr_step; [apply cr_init|apply calm_changed|exact E0].
    - injection E0 as <-. reflexivity. }
  vm_compute in E. injection E as <-. split; [reflexivity|]. split; [reflexivity|]. split; [reflexivity|].
  eexists. split; [vm_compute; reflexivity|]. split; reflexivity.
Qed.

(** Finding: a route which disappears and comes back while the kernel still
    processes the removal is lost: the entry is marked as set, the kernel does
    not have the route, and further calculations consider it unchanged. *)
Theorem C52_flapping_route_refuted :
  exists dom os s, all_accepting os /\ rrun (rinit dom []) os = Some s /\ settled s /\
    exists e, In e (s_tab s) /\ re_set e = true /\ re_proc e = false /\
      (forall p, ~ In (re_key e, p) (s_kern s)) /\
      exists s', rrun s [RChanged; upd [nb2]] = Some s' /\ settled s' /\
        forall p, ~ In (re_key e, p) (s_kern s').
Proof.
  exists dom1, [RChanged; upd [nb2]; RAnswer 2; RAnswer 3; RChanged; upd [];
                RChanged; upd [nb2]; RAnswer 2; RAnswer 3].
  eexists. split; [check_accepting|]. split; [vm_compute; reflexivity|]. split; [reflexivity|].
  eexists. split; [left; reflexivity|]. split; [reflexivity|]. split; [reflexivity|].
  split; [intros p []|]. eexists. split; [vm_compute; reflexivity|]. split; [reflexivity|]. intros p [].
Qed.

(** Finding: a route whose gateway changes while the kernel still processes
    the previous change keeps the previous gateway. *)
Definition nb3 : neigh := Neigh 3 1 10 1 8 3 [3] [].
Theorem C52_changed_route_refuted :
  exists dom os s, all_accepting os /\ rrun (rinit dom []) os = Some s /\ settled s /\
    exists e p, In e (s_tab s) /\ re_set e = true /\ re_proc e = false /\
      In (re_key e, p) (s_kern s) /\ p_if p <> p_if (re_p e) /\ p_gw p <> p_gw (re_p e) /\
      exists s', rrun s [RChanged; upd [nb2; nb3]] = Some s' /\ s_kern s' = s_kern s.
Proof.
  exists dom1, [RChanged; upd [nb2]; RChanged; upd [nb2; nb3]; RAnswer 2; RAnswer 3].
  eexists. split; [check_accepting|]. split; [vm_compute; reflexivity|]. split; [reflexivity|].
  eexists _, _. split; [right; left; reflexivity|]. split; [reflexivity|]. split; [reflexivity|].
  split; [left; reflexivity|]. split; [discriminate|]. split; [discriminate|].
  eexists. split; vm_compute; reflexivity.
Qed.

(** Finding: if the kernel refuses to change a route, the entry is forgotten
    and the old route stays in the kernel. *)
Theorem C52_refused_change_refuted :
  exists dom os s, rrun (rinit dom []) os = Some s /\ settled s /\
    exists k p, In (k, p) (s_kern s) /\ ~ In k (map re_key (s_tab s)).
Proof.
  exists dom1, [RChanged; upd [nb2]; RAnswer 2; RAnswer 3; RChanged;
                RUpdate ex_env tp2 [nb2; nb3] (fun k => if k =? 3 then 101 else 0); RAnswer 3; RAnswer 2].
  eexists. split; [vm_compute; reflexivity|]. split; [reflexivity|].
  exists 3, (RParam 7 2 2 254 100 0). split; [now left|]. cbn. intros [H|[]]; discriminate.
Qed.

(** Finding: the same happens when the answers are only late (timeout of the
    netlink socket). *)
Theorem C52_timeout_refuted :
  exists dom os s, all_accepting os /\ rrun (rinit dom []) os = Some s /\ settled s /\
    exists e, In e (s_tab s) /\ re_set e = true /\ re_proc e = false /\
      forall p, ~ In (re_key e, p) (s_kern s).
Proof.
  exists dom1, [RChanged; upd [nb2]; RAnswer 2; RAnswer 3; RChanged; upd []; RTimeout;
                RChanged; upd [nb2]].
  eexists. split; [check_accepting|]. split; [vm_compute; reflexivity|]. split; [reflexivity|].
  eexists. split; [left; reflexivity|]. split; [reflexivity|]. split; [reflexivity|]. intros p [].
Qed.

(** * C51 *)

(** Finding: a filter which rejects every change has no effect: the route is
    sent to the kernel. *)
Definition reject_all : rfilter := fun _ p _ => (false, p).
Theorem C51_filter_refuted :
  exists dom flt os s, (forall f, In f flt -> forall k p set, fst (f k p set) = false) /\ flt <> [] /\
    rrun (rinit dom flt) os = Some s /\ s_sent s <> [] /\ s_kern s <> [].
Proof.
  exists dom1, [reject_all], [RChanged; upd [nb2]]. eexists.
  split; [intros f [<-|[]] k p set; reflexivity|]. split; [discriminate|].
  split; [vm_compute; reflexivity|]. split; discriminate.
Qed.

(** What is true: the parameters of all routes pass through all filters in
    their order before they are sent. *)
Theorem C51_filters_modify_partial : forall ev dom flt l e,
  In e (fst (process_dijkstra_result ev dom flt l)) ->
  exists e0 p, In e0 l /\ re_key e0 = re_key e /\
    p_if p = p_if (re_p e0) /\ p_gw p = p_gw (re_p e0) /\ p_metric p = rd_metric dom /\
    p_table p = rd_table dom /\ p_proto p = rd_proto dom /\
    re_p e = apply_filters flt (re_key e) p (re_set e).
Proof.
  intros ev dom flt l e H. cbn [process_dijkstra_result fst] in H. apply in_map_iff in H as (e0 & <- & H).
  exists e0. eexists. split; [exact H|]. split; [reflexivity|].
  unfold finish_entry. cbv zeta. cbn [re_p re_key re_set]. unfold apply_filters.
  match goal with |- context [fold_left _ flt ?P] => instantiate (1 := P) end.
  repeat split.
Qed.

Example C51_ex : map (fun e => (re_key e, p_table (re_p e)))
    (fst (process_dijkstra_result ex_env dom1 [mod3]
       [REntry 2 1 1 2 2 1 true false None (RParam 7 0 0 0 0 0);
        REntry 3 1 1 2 2 1 true false None (RParam 7 2 0 0 0 0)])) = [(2, 254); (3, 55)].
Proof. reflexivity. Qed.

(** * C60: order of the requests *)

(** In every update, whatever is outstanding and whatever the kernel answers,
    setting direct routes and removing routes with a gateway comes before
    setting routes with a gateway and removing direct routes. *)
Theorem C60_request_order : forall dom flt os s ev tp nbs kerr s',
  (forall ev tp nbs kerr, In (RUpdate ev tp nbs kerr) os -> topo_ok ev tp) ->
  rrun (rinit dom flt) os = Some s -> topo_ok ev tp ->
  rstep s (RUpdate ev tp nbs kerr) = Some s' ->
  exists A B, s_sent s' = s_sent s ++ A ++ B /\
    Forall (fun r => early r = true) A /\ Forall (fun r => early r = false) B.
Proof.
  intros dom flt os s ev tp nbs kerr s' OK R TK E. apply (update_order ev tp nbs kerr); auto.
  apply (rrun_NoDup os (rinit dom flt)); auto. constructor.
Qed.

Example C60_ex :
  exists s s', rrun (rinit dom1 []) [RChanged; upd [nb2]; RAnswer 2; RAnswer 3; RChanged] = Some s /\
    rstep s (upd [nb3]) = Some s' /\
    s_sent s' = s_sent s ++ [(3, true, RParam 8 0 2 254 100 0)] ++ [(2, false, RParam 7 0 2 254 100 0)].
Proof. do 2 eexists. split; [vm_compute; reflexivity|]. split; vm_compute; reflexivity. Qed.

(** * C61: shutdown *)

(** Full statement: after the shutdown no route of this daemon is left in the
    kernel.  Proved when no request is outstanding at the time of the
    shutdown. *)
Theorem C61_shutdown_removes_routes_partial : forall v4 dom flt s,
  fixed_filters flt -> calm_reach v4 dom flt s -> settled s ->
  exists s', rstep s (RShutdown accepting) = Some s' /\ s_kern s' = [] /\
    forall ev tp nbs kerr, rstep s' (RUpdate ev tp nbs kerr) = Some s'.
Proof.
  intros v4 dom flt s FX R Q.
  destruct (shutdown_inv v4 flt s (calm_inv v4 flt FX dom s R) Q) as (_ & K & S).
  eexists. split; [reflexivity|]. split; [exact K|].
  intros ev tp nbs kerr. cbn [rstep]. unfold force_update. now rewrite S.
Qed.

(** Finding: a route whose request is outstanding when the shutdown starts
    stays in the kernel for ever: its request is interrupted without callback,
    in_processing stays true and the removal is skipped. *)
Theorem C61_shutdown_refuted :
  exists dom os s, all_accepting os /\ rrun (rinit dom []) (os ++ [RShutdown accepting]) = Some s /\
    settled s /\ s_kern s <> [] /\ forall k, rstep s (RAnswer k) = Some s.
Proof.
  exists dom1, [RChanged; upd [nb2]]. eexists. split; [check_accepting|].
  split; [vm_compute; reflexivity|]. split; [reflexivity|]. split; [discriminate|]. reflexivity.
Qed.

(** * C62: change of the domain parameters *)

(** Full statement: after new parameters are set, all routes are in the kernel
    with the new parameters as soon as the triggered update has run.

    Only the first half holds: the routes with the old parameters are removed. *)
Theorem C62_old_routes_removed_partial : forall v4 dom flt s d,
  fixed_filters flt -> calm_reach v4 dom flt s -> settled s -> rdomain_eqb d (s_dom s) = false ->
  exists s', rstep s (RParams d accepting) = Some s' /\ s_kern s' = [] /\ s_dom s' = d.
Proof.
  intros v4 dom flt s d FX R Q N. eexists. split; [reflexivity|].
  unfold set_domain_parameter. rewrite N.
  set (s0 := RState (s_tab s) (s_dn s) (s_kern s) (s_pend s) (s_sent s) d (s_flt s)
                (s_changed s) (s_shut s) (s_freeze s)).
  destruct (withdraw_inv v4 flt s s0 reset_entry (calm_inv v4 flt FX dom s R) Q) as (s1 & q & E & _ & A & B);
    try reflexivity.
  - intros s' q' k e P F S X. cbn [reset_entry]. rewrite F, S, X. unfold unset. now rewrite X.
  - rewrite E. split; [exact A|]. destruct B as (-> & _). reflexivity.
Qed.

(** Finding: the triggered update does nothing, because the domain is not
    marked as changed; the routes are gone until the topology changes. *)
Theorem C62_parameter_change_refuted :
  exists dom d os s s', all_accepting os /\ rrun (rinit dom []) os = Some s /\ settled s /\ s_kern s <> [] /\
    rrun s [RParams d accepting; RAnswer 2; RAnswer 3; upd [nb2]; upd [nb2]] = Some s' /\
    settled s' /\ s_kern s' = [].
Proof.
  exists dom1, dom2, [RChanged; upd [nb2]; RAnswer 2; RAnswer 3].
  do 2 eexists. split; [check_accepting|]. split; [vm_compute; reflexivity|].
  split; [reflexivity|]. split; [discriminate|].
  split; [vm_compute; reflexivity|]. split; reflexivity.
Qed.

Print Assumptions C51_filter_refuted.
Print Assumptions C51_filters_modify_partial.
Print Assumptions C52_kernel_in_sync_partial.
Print Assumptions C52_update_installs_partial.
Print Assumptions C52_flapping_route_refuted.
Print Assumptions C52_changed_route_refuted.
Print Assumptions C52_refused_change_refuted.
Print Assumptions C52_timeout_refuted.
Print Assumptions C60_request_order.
Print Assumptions C61_shutdown_removes_routes_partial.
Print Assumptions C61_shutdown_refuted.
Print Assumptions C62_old_routes_removed_partial.
Print Assumptions C62_parameter_change_refuted.
