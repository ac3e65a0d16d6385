(** What users rely on in the NHDP database, stated on its observable contents:
    neighbors, links, addresses and two-hop addresses. *)
From Verif Require Import Base NhdpModel.

(** all references of the database lead to existing objects, keys are unique,
    dualstack partners know each other *)
Record consistent (s : db) : Prop := {
  co_n : NoDup (map n_id (s_n s));
  co_l : NoDup (map l_id (s_l s));
  co_link : forall l, In l (s_l s) -> In (l_n l) (map n_id (s_n s)) /\ In (l_if l) (s_ifs s);
  co_naddr : NoDup (map na_addr (s_na s)) /\ forall x, In x (s_na s) -> In (na_n x) (map n_id (s_n s));
  co_laddr : NoDup (map (fun x => (la_if x, la_addr x)) (s_la s)) /\
             forall x, In x (s_la s) -> exists l, In l (s_l s) /\ l_id l = la_l x /\ l_if l = la_if x;
  co_l2hop : NoDup (map (fun x => (h2_l x, h2_addr x)) (s_h s)) /\ forall x, In x (s_h s) -> In (h2_l x) (map l_id (s_l s));
  co_orig : forall n m, In n (s_n s) -> In m (s_n s) -> n_orig n = n_orig m -> a_af (n_orig n) <> 0 -> n = m;
  co_ndual : forall n p, In n (s_n s) -> n_dual n = Some p -> exists m, In m (s_n s) /\ n_id m = p /\ n_dual m = Some (n_id n);
  co_ldual : forall l p, In l (s_l s) -> l_dual l = Some p -> exists m, In m (s_l s) /\ l_id m = p /\ l_dual m = Some (l_id l)
}.

(** number of symmetric links of a neighbor *)
Definition sym_links (s : db) (i : Z) : Z := zlen (filter (fun l => (l_n l =? i) && (l_status l =? SYMMETRIC)) (s_l s)).
Definition counts_ok (s : db) : Prop := forall n, In n (s_n s) -> n_sym n = sym_links s (n_id n).

(** ** What a HELLO says about its sender *)
(** addresses of the sender, and those of its sending interface *)
Definition local (x : haddr) : Prop := exists v, ha_local x = Some v.
Definition this_if (x : haddr) : Prop := exists v, ha_local x = Some v /\ Z.even v = true.
(** the neighbors and the links of the receiving interface that already have addresses of the HELLO *)
Definition known_neigh (s : db) (h : hello) (i : Z) : Prop :=
  exists x na, In x (h_addrs h) /\ local x /\ In na (s_na s) /\ na_addr na = ha_addr x /\ na_n na = i.
Definition known_link (s : db) (h : hello) (i : Z) : Prop :=
  exists x la, In x (h_addrs h) /\ this_if x /\ In la (s_la s) /\ la_if la = h_if h /\ la_addr la = ha_addr x /\ la_l la = i.
Definition one (P : Z -> Prop) : Prop := forall i j, P i -> P j -> i = j.
Definition none (P : Z -> Prop) : Prop := forall i, ~ P i.
(** all TLVs fulfil the constraints *)
Definition well_formed (h : hello) : Prop :=
  h_ok h = true /\ Forall (fun x => ha_ok1 x = true /\ ha_ok2 x = true) (h_addrs h).

(** a history in which every event fulfils [G] in the state it meets *)
Fixpoint guarded (G : db -> event -> Prop) (s : db) (l : list event) : Prop :=
  match l with
  | [] => True
  | e :: r => G s e /\ forall s', step s e = Ok s' -> guarded G s' r
  end.

(** HELLOs that merge neighbors only when the receiving link is a new one *)
Definition mergeable (s : db) (h : hello) : Prop :=
  one (known_neigh s h) \/ none (known_link s h) \/ ~ one (known_link s h).
(** events that cannot meet a dangling pointer *)
Definition safe_event (s : db) (e : event) : Prop :=
  match e with
  | EvHello h =>
    if h_ok h then mergeable s h
    else (forall i, c_l (s_cur s) = Some i -> In i (map l_id (s_l s))) /\
         (forall i, c_n (s_cur s) = Some i -> In i (map n_id (s_n s)))
  | EvIfRemove _ => False
  | _ => True
  end.
(** events that keep the counters right *)
Definition counting_event (s : db) (e : event) : Prop :=
  match e with
  | EvHello h => well_formed h /\ mergeable s h /\ one (known_link s h)
  | EvIfDown _ | EvIfRemove _ => False
  | _ => True
  end.

(** ** What an accepted HELLO does *)
(** a HELLO whose addresses all belong to one known neighbor and link (or to none),
    with the link being one of that neighbor *)
Record coherent (s : db) (h : hello) : Prop := {
  ch_wf : well_formed h; ch_active : h_active h = true; ch_if : In (h_if h) (s_ifs s);
  ch_nodup : NoDup (map ha_addr (h_addrs h));
  ch_this : exists x, In x (h_addrs h) /\ this_if x;
  ch_n : one (known_neigh s h); ch_l : one (known_link s h);
  ch_nl : forall l, In l (s_l s) -> known_link s h (l_id l) -> known_neigh s h (l_n l)
}.
Definition same_link (l l' : link) : Prop :=
  l_id l = l_id l' /\ l_n l = l_n l' /\ l_if l = l_if l' /\ l_ifaddr l = l_ifaddr l' /\ l_mac l = l_mac l' /\ l_status l = l_status l' /\
  l_sym l = l_sym l' /\ l_heard l = l_heard l' /\ l_vt l = l_vt l'.
(** [L] and [N]: the link and the neighbor of the HELLO *)
Record accepted (s : db) (h : hello) (s' : db) (L N : Z) : Prop := {
  (* the known objects are used *)
  ac_known_l : forall i, known_link s h i -> i = L;
  ac_known_n : forall i, known_neigh s h i -> i = N;
  ac_link : exists l, In l (s_l s') /\ l_id l = L /\ l_n l = N /\ l_if l = h_if h /\ l_ifaddr l = h_src h;
  (* the link has exactly the addresses of the sending interface *)
  ac_laddr : forall a, (exists la, In la (s_la s') /\ la_l la = L /\ la_addr la = a) <-> (exists x, In x (h_addrs h) /\ this_if x /\ ha_addr x = a);
  (* the neighbor has all addresses of the sender, and those it had *)
  ac_naddr : forall a, (exists na, In na (s_na s') /\ na_n na = N /\ na_addr na = a) <->
                       (exists x, In x (h_addrs h) /\ local x /\ ha_addr x = a) \/ (exists na, In na (s_na s) /\ na_n na = N /\ na_addr na = a);
  (* nothing happens to the others *)
  ac_other_l : forall l, l_id l <> L -> (In l (s_l s') -> exists l', In l' (s_l s) /\ same_link l l') /\
                                         (In l (s_l s) -> exists l', In l' (s_l s') /\ same_link l l');
  ac_other_n : forall i k, i <> N -> ((exists n, In n (s_n s') /\ n_id n = i /\ n_sym n = k) <-> (exists n, In n (s_n s) /\ n_id n = i /\ n_sym n = k));
  ac_other_na : forall x, na_n x <> N -> (In x (s_na s') <-> In x (s_na s));
  ac_other_la : forall x, la_l x <> L -> (In x (s_la s') <-> In x (s_la s));
  ac_other_h : forall x, h2_l x <> L -> (In x (s_h s') <-> In x (s_h s));
  ac_rest : s_env s' = s_env s /\ s_ifs s' = s_ifs s /\ s_now s' = s_now s
}.

(** what the HELLO says about the receiver: heard (or symmetric), or lost *)
Definition hears_us (s : db) (h : hello) : Prop :=
  exists x v, In x (h_addrs h) /\ e_own (s_env s) (h_if h) (ha_addr x) = true /\ ha_status x = Some v /\ v mod 4 <> 0.
Definition lost_us (s : db) (h : hello) : Prop :=
  exists x v, In x (h_addrs h) /\ e_own (s_env s) (h_if h) (ha_addr x) = true /\ ha_status x = Some v /\ v mod 4 = 0.
(** an address of a third node *)
Definition third (s : db) (h : hello) (x : haddr) : Prop :=
  In x (h_addrs h) /\ e_own (s_env s) (h_if h) (ha_addr x) = false /\ e_any (s_env s) (ha_addr x) = false /\ (ha_status x <> None \/ ha_other x <> None).
Definition reports_sym (x : haddr) : Prop :=
  (exists v, ha_status x = Some v /\ v mod 4 = 1) \/ (exists v, ha_other x = Some v /\ v mod 2 = 1).
(** the HELLO is not our own one, and the link quality does not hold the link down *)
Record no_loop (s : db) (h : hello) (L : Z) : Prop := {
  nl_src : e_own (s_env s) (h_if h) (h_src h) = false;
  nl_orig : let o := e_orig (s_env s) (a_af (h_src h)) in a_af o = 0 \/ o <> h_src h /\ o <> h_orig h /\ forall n, In n (s_n s) -> n_orig n <> o;
  nl_mac : let m := e_mac (s_env s) (h_if h) in m <> h_mac h /\ forall l, In l (s_l s) -> l_mac l <> m;
  nl_qual : e_pend (s_env s) L = false /\ e_hlost (s_env s) L = false
}.
(** timers that are due have fired; times do not overflow *)
Definition timely (s : db) (h : hello) : Prop :=
  0 <= s_now s /\ 0 < h_vtime h /\ s_now s + h_vtime h < 2 ^ 64 /\
  forall l d, In l (s_l s) -> l_sym l = Some d -> s_now s < d < 2 ^ 64.
(** [was]: the link was symmetric before; [old]: its symmetric timer before *)
Definition was_sym (s : db) (L : Z) : Prop := exists l, In l (s_l s) /\ l_id l = L /\ l_status l = SYMMETRIC.
Definition old_sym (s : db) (L : Z) (t : option Z) : Prop :=
  (exists l, In l (s_l s) /\ l_id l = L /\ l_sym l = t) \/ (forall l, In l (s_l s) -> l_id l <> L) /\ t = None.
Record settled (s : db) (h : hello) (s' : db) (l' : link) (N : Z) : Prop := {
  (* RFC 6130, 12.5 *)
  se_sym : (hears_us s h -> l_sym l' = Some (s_now s + h_vtime h)) /\
           (~ hears_us s h -> lost_us s h -> l_sym l' = None) /\
           (~ hears_us s h -> ~ lost_us s h -> old_sym s (l_id l') (l_sym l'));
  se_heard : l_heard l' = Some (match l_sym l' with Some d => Z.max d (s_now s + h_vtime h) | None => s_now s + h_vtime h end);
  se_status : l_status l' = if l_sym l' then SYMMETRIC else HEARD;
  (* addresses the HELLO does not list any more are lost after the hold time *)
  se_listed : l_status l' = SYMMETRIC \/ ~ was_sym s (l_id l') ->
    forall na x, In na (s_na s') -> na_n na = N -> In x (h_addrs h) -> local x -> ha_addr x = na_addr na -> na_lost na = None;
  se_unlisted : (l_status l' = SYMMETRIC <-> was_sym s (l_id l')) ->
    forall na, In na (s_na s') -> na_n na = N -> binlength (na_addr na) = h_addrlen h ->
    (forall x, In x (h_addrs h) -> local x -> ha_addr x <> na_addr na) -> na_lost na = timer s (e_nhold (s_env s) (h_if h));
  (* the two-hop addresses are those the HELLO reports as symmetric *)
  se_2hop : l_status l' = SYMMETRIC \/ ~ was_sym s (l_id l') ->
    forall x, third s h x ->
    (reports_sym x -> (forall na, In na (s_na s) -> na_n na = N -> na_addr na <> ha_addr x) ->
       exists y, In y (s_h s') /\ h2_l y = l_id l' /\ h2_addr y = ha_addr x /\ h2_vt y = timer s (h_vtime h)) /\
    (~ reports_sym x -> forall y, In y (s_h s') -> h2_l y = l_id l' -> h2_addr y <> ha_addr x)
}.
