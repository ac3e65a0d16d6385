(** Model of the MPR selection (src/nhdp/mpr/selection-rfc7181.c,
    neighbor-graph.c, neighbor-graph-flooding.c, neighbor-graph-routing.c and
    mpr.c).

    Addresses are opaque numbers; AVL trees keyed with addresses are lists in
    the order of their keys.  Allocations are assumed to succeed.  [None] is a
    fault: dereferencing a NULL pointer, leaving an array, or a failing
    OONF_ASSERT (which calls abort() if the daemon is built without NDEBUG,
    include/oonf/libcore/oonf_logging.h:154-178). *)
From Verif Require Import Base.

(** include/oonf/librfc5444/rfc5444_iana.h:150-190 *)
Definition METRIC_MAX : Z := 16776960.             (* 0xffff00 *)
Definition METRIC_INFINITE : Z := 16777215.        (* 0xffffff *)
Definition METRIC_INFINITE_PATH : Z := 4294967295. (* 0xffffffff *)
Definition WILL_NEVER : Z := 0.
Definition WILL_ALWAYS : Z := 15.

(** * The NHDP database, as far as it is read here *)

(** struct nhdp_l2hop (include/oonf/nhdp/nhdp/nhdp_db.h:274-295): address and
    metrics of the domain the selection runs for. *)
Record l2hop := L2 { l2_addr : Z; l2_in : Z; l2_out : Z }.

(** struct nhdp_neighbor (nhdp_db.h:300-350): identity (the pointer),
    originator, addresses, number of symmetric links, incoming metric and
    willingness of the domain, and the two-hop addresses of its links in the
    order of _links. *)
Record neigh := Neigh {
  mn_id : Z; mn_orig : Z; mn_addrs : list Z; mn_sym : Z; mn_in : Z; mn_will : Z;
  mn_l2 : list (list l2hop) }.

(** struct nhdp_link (nhdp_db.h:171-246): identity, interface, neighbor,
    outgoing metric of the domain, status == NHDP_LINK_SYMMETRIC, flooding
    willingness, two-hop addresses. *)
Record link := Link {
  ml_id : Z; ml_if : Z; ml_neigh : neigh; ml_out : Z; ml_sym : bool; ml_will : Z;
  ml_2hop : list l2hop }.

(** * The neighbor graph *)

(** struct n1_node and struct addr_node
    (include/oonf/nhdp/mpr/neighbor-graph.h:79-100); the field min_d_z_y is
    kept in [g_mins]. *)
Record n1_node := N1 { n1_addr : Z; n1_neigh : neigh; n1_link : option link; n1_off : Z }.
Record addr_node := Adr { ad_addr : Z; ad_off : Z }.

(** struct neighbor_graph_interface (neighbor-graph.h:57-66), with the two
    parts of calculate_d_x_y, which is the same function for both graphs. *)
Record methods := Meth {
  m_d1_y : list n1_node -> Z -> option Z;     (* calculate_d1_x_of_n2_addr *)
  m_d1 : n1_node -> option Z;                 (* _calculate_d1_x *)
  m_d2 : n1_node -> Z -> option Z;            (* calculate_d2_x_y *)
  m_will : n1_node -> option Z }.             (* get_willingness_n1 *)

(** The mutable part of struct neighbor_graph (neighbor-graph.h:68-78): cache,
    minimal costs stored in the nodes of set_n, set_mpr, and the identities of
    the neighbors with selection_is_mpr. *)
Record gstate := GState { g_cache : list Z; g_mins : list (Z * Z); g_sel : list Z; g_mpr : list n1_node }.

Definition M (A : Type) : Type := gstate -> option (A * gstate).
Definition ret {A} (x : A) : M A := fun s => Some (x, s).
Definition bind {A B} (x : M A) (f : A -> M B) : M B :=
  fun s => match x s with Some (a, s') => f a s' | None => None end.
Definition lift {A} (x : option A) : M A := fun s => match x with Some a => Some (a, s) | None => None end.
Definition fault {A} : M A := fun _ => None.
Notation "x <- a ; b" := (bind a (fun x => b)) (at level 61, a at next level, right associativity).

(** Loops: over all elements with an accumulator, and until the first hit. *)
Fixpoint mfold {A B} (f : A -> B -> M A) (l : list B) (a : A) : M A :=
  match l with
  | [] => ret a
  | x :: l' => a' <- f a x; mfold f l' a'
  end.
Fixpoint mexists {B} (f : B -> M bool) (l : list B) : M bool :=
  match l with
  | [] => ret false
  | x :: l' => b <- f x; if b then ret true else mexists f l'
  end.

(** avl_insert into a tree without duplicates: mpr_add_n1_node_to_set and
    mpr_add_addr_node_to_set (neighbor-graph.c:70-98) keep an existing node. *)
Fixpoint set_add {A} (key : A -> Z) (x : A) (l : list A) : list A :=
  match l with
  | [] => [x]
  | y :: l' => if key x <? key y then x :: l else if key x =? key y then l else y :: set_add key x l'
  end.
Definition add_n1 (n : neigh) (l : option link) (off : Z) (set : list n1_node) : list n1_node :=
  set_add n1_addr (N1 (mn_orig n) n l off) set.
Definition add_addr (a off : Z) (set : list addr_node) : list addr_node := set_add ad_addr (Adr a off) set.

(** avl_find_element in a _2hop tree. *)
Definition find_2hop (y : Z) (l : list l2hop) : option l2hop := find (fun h => l2_addr h =? y) l.

(** ** calculate_d_x_y (neighbor-graph-flooding.c:154-184 and
    neighbor-graph-routing.c:165-195) *)
Definition path_cost (c1 c2 : Z) : Z :=
  if (c1 >? METRIC_MAX) || (c2 >? METRIC_MAX) then METRIC_INFINITE_PATH else u32 (c1 + c2).
Definition cache_get (i : Z) : M Z := fun s => match zget (g_cache s) i with Some c => Some (c, s) | None => None end.
Definition cache_set (i c : Z) : M unit := fun s =>
  match zset (g_cache s) i c with
  | Some k => Some (tt, GState k (g_mins s) (g_sel s) (g_mpr s))
  | None => None
  end.
Definition d_x_y (m : methods) (x : n1_node) (y : addr_node) : M Z :=
  let idx := u32 (n1_off x + ad_off y) in
  c <- cache_get idx;
  if c =? 0 then
    c1 <- lift (m_d1 m x);
    c2 <- lift (m_d2 m x (ad_addr y));
    let cost := path_cost c1 c2 in
    _ <- cache_set idx cost;
    ret cost
  else ret c.

(** mpr_calculate_minimal_d_z_y (neighbor-graph.c:174-211) *)
Definition mins_get (a : Z) : M Z := fun s =>
  Some (match find (fun p => fst p =? a) (g_mins s) with Some p => snd p | None => 0 end, s).
Definition mins_set (a c : Z) : M unit := fun s =>
  Some (tt, GState (g_cache s) ((a, c) :: g_mins s) (g_sel s) (g_mpr s)).
Definition minimal_d_z_y (m : methods) (n1 : list n1_node) (y : addr_node) : M Z :=
  c <- mins_get (ad_addr y);
  if negb (c =? 0) then ret c
  else
    r <- mfold (fun b z => d <- d_x_y m z y; ret (if d <? b then d else b)) n1 METRIC_INFINITE_PATH;
    _ <- mins_set (ad_addr y) r;
    ret r.

(** selection_is_mpr of a neighbor; set_mpr *)
Definition is_sel (x : n1_node) : M bool := fun s => Some (existsb (Z.eqb (mn_id (n1_neigh x))) (g_sel s), s).
Definition set_sel (x : n1_node) : M unit := fun s =>
  Some (tt, GState (g_cache s) (g_mins s) (mn_id (n1_neigh x) :: g_sel s) (g_mpr s)).
Definition add_mpr (n : neigh) (l : option link) (off : Z) : M unit := fun s =>
  Some (tt, GState (g_cache s) (g_mins s) (g_sel s) (add_n1 n l off (g_mpr s))).

(** ** selection-rfc7181.c *)

(** _calculate_n (selection-rfc7181.c:83-116) *)
Definition calculate_n (m : methods) (n1 : list n1_node) (n2 : list addr_node) : M (list addr_node) :=
  mfold (fun set y =>
    d1 <- lift (m_d1_y m n1 (ad_addr y));
    add <- (if d1 =? METRIC_INFINITE then ret true
            else mexists (fun x => d <- d_x_y m x y; ret (d <? d1)) n1);
    ret (if add then add_addr (ad_addr y) (ad_off y) set else set)) n2 [].

(** _calculate_r (selection-rfc7181.c:132-188) *)
Definition calculate_r (m : methods) (n1 : list n1_node) (n : list addr_node) (x : n1_node) : M Z :=
  s <- is_sel x;
  if s then ret 0 else
  mfold (fun r y =>
    d <- d_x_y m x y;
    mn <- minimal_d_z_y m n1 y;
    if d >? mn then ret r else
    covered <- mexists (fun z =>
        dz <- d_x_y m z y;
        if dz =? mn then is_sel z else ret false) n1;
    ret (if covered then r else u32 (r + 1))) n 0.

(** _process_will_always (selection-rfc7181.c:195-212): the neighbor is read
    through the link. *)
Definition process_will_always (m : methods) (n1 : list n1_node) : M unit :=
  mfold (fun _ x =>
    w <- lift (m_will m x);
    if w =? WILL_ALWAYS then
      l <- lift (n1_link x);
      add_mpr (ml_neigh l) (Some l) (n1_off x)
    else ret tt) n1 tt.

(** _process_unique_mprs (selection-rfc7181.c:221-256) *)
Definition process_unique_mprs (m : methods) (n1 : list n1_node) (n : list addr_node) : M unit :=
  mfold (fun _ y =>
    p <- mfold (fun p x =>
           d2 <- lift (m_d2 m x (ad_addr y));
           ret (if d2 <=? METRIC_MAX then (u32 (fst p + 1), Some x) else p)) n1 (0, None);
    if negb (fst p >? 0) then fault
    else if fst p =? 1 then
      x <- lift (snd p);
      _ <- add_mpr (n1_neigh x) (n1_link x) (n1_off x);
      set_sel x
    else ret tt) n tt.

(** _select_greatest_by_property (selection-rfc7181.c:265-321) with
    _calculate_r as property: the new set of candidates. *)
Definition select_greatest (m : methods) (n1 : list n1_node) (n : list addr_node) : M (list n1_node) :=
  r <- mfold (fun (a : option Z * list n1_node) x =>
         let (greatest, cand) := a in
         p <- calculate_r m n1 n x;
         ret (if p >? 0 then
                match greatest with
                | None => (Some p, add_n1 (n1_neigh x) (n1_link x) (n1_off x) [])
                | Some g => if p >? g then (Some p, add_n1 (n1_neigh x) (n1_link x) (n1_off x) [])
                            else if p =? g then (Some g, add_n1 (n1_neigh x) (n1_link x) (n1_off x) cand)
                            else a
                end
              else a)) n1 (None, []);
  ret (fold_left (fun s x => add_n1 (n1_neigh x) (n1_link x) (n1_off x) s) (snd r) []).

(** _process_remaining (selection-rfc7181.c:337-394): both branches with
    candidates take the first one.  Running out of fuel is a fault. *)
Fixpoint process_remaining (fuel : nat) (m : methods) (n1 : list n1_node) (n : list addr_node) : M unit :=
  match fuel with
  | O => fault
  | S fuel' =>
    cand <- select_greatest m n1 n;
    match cand with
    | [] => ret tt
    | x :: _ =>
      _ <- add_mpr (n1_neigh x) (n1_link x) (n1_off x);
      _ <- set_sel x;
      process_remaining fuel' m n1 n
    end
  end.

(** mpr_calculate_mpr_rfc7181 (selection-rfc7181.c:402-433): table offsets,
    cache, and the four steps.  The number of rounds is limited by the number
    of neighbors, see C49. *)
Fixpoint number_n1 (i : Z) (l : list n1_node) : list n1_node :=
  match l with
  | [] => []
  | x :: l' => N1 (n1_addr x) (n1_neigh x) (n1_link x) i :: number_n1 (u32 (i + 1)) l'
  end.
Fixpoint number_n2 (i step : Z) (l : list addr_node) : list addr_node :=
  match l with
  | [] => []
  | y :: l' => Adr (ad_addr y) i :: number_n2 (u32 (i + step)) step l'
  end.
Definition mpr_calculate (m : methods) (n1 : list n1_node) (n2 : list addr_node) : M (list n1_node * list addr_node) :=
  fun s =>
    let c := repeat 0 (Z.to_nat (u32 (zlen n1 * zlen n2))) in
    let n1 := number_n1 0 n1 in
    let n2 := number_n2 0 (zlen n1) n2 in
    (n <- calculate_n m n1 n2;
     _ <- process_will_always m n1;
     _ <- process_unique_mprs m n1 n;
     _ <- process_remaining (S (length n1)) m n1 n;
     ret (n1, n2)) (GState c (g_mins s) (g_sel s) (g_mpr s)).

(** mpr_calculate_d_of_y_s (neighbor-graph.c:274-300) *)
Definition d_of_y_s (m : methods) (n1 : list n1_node) (y : addr_node) (set : list n1_node) : M Z :=
  d1 <- lift (m_d1_y m n1 (ad_addr y));
  mfold (fun b x => d <- d_x_y m x y; ret (if d <? b then d else b)) set
    (if d1 >? METRIC_MAX then METRIC_INFINITE_PATH else d1).

(** _validate_mpr_set (mpr.c:244-290), which runs in debug builds.  [m_will]
    is the willingness the code compares in both cases. *)
Definition validate (m : methods) (n1 : list n1_node) (n2 : list addr_node) : M unit :=
  _ <- mfold (fun _ x =>
         w <- lift (m_will m x);
         (fun s => if (w =? WILL_ALWAYS) && negb (existsb (fun z => n1_addr z =? n1_addr x) (g_mpr s))
                   then None else Some (tt, s))) n1 tt;
  mfold (fun _ y =>
    a <- d_of_y_s m n1 y n1;
    b <- (fun s => d_of_y_s m n1 y (g_mpr s) s);
    if negb (b <? METRIC_INFINITE_PATH) then fault
    else if negb (b =? a) then fault
    else ret tt) n2 tt.

(** ** The graph for flooding MPRs (neighbor-graph-flooding.c) *)

(** _is_reachable_link_tuple, _is_allowed_link_tuple (99-121) *)
Definition allowed_link (i : Z) (l : link) : bool :=
  (ml_if l =? i) && (ml_out l <=? METRIC_MAX) && ml_sym l && (ml_will l >? WILL_NEVER).
(** _calculate_d1_x (132-138), _calculate_d2_x_y (140-152),
    _calculate_d1_x_of_n2_addr (193-211), _get_willingness_n1 (270-273) *)
Definition flood_d1 (x : n1_node) : option Z := match n1_link x with Some l => Some (ml_out l) | None => None end.
Definition flood_d2 (x : n1_node) (y : Z) : option Z :=
  match n1_link x with
  | Some l => Some (match find_2hop y (ml_2hop l) with Some h => l2_out h | None => METRIC_INFINITE end)
  | None => None
  end.
Definition flood_d1_y (n1 : list n1_node) (y : Z) : option Z :=
  match find (fun x => existsb (Z.eqb y) (mn_addrs (n1_neigh x))) n1 with
  | Some x => match n1_link x with Some l => Some (ml_out l) | None => None end
  | None => Some METRIC_INFINITE
  end.
Definition flood_will (x : n1_node) : option Z := match n1_link x with Some l => Some (ml_will l) | None => None end.
Definition flooding : methods := Meth flood_d1_y flood_d1 flood_d2 flood_will.

(** _calculate_n1 (218-232), _is_allowed_2hop_tuple (123-130),
    _calculate_n2 (247-262) *)
Definition flood_n1 (i : Z) (db : list link) : list n1_node :=
  fold_left (fun set l => if allowed_link i l then add_n1 (ml_neigh l) (Some l) 0 set else set) db [].
Definition add_2hops (ok : l2hop -> bool) (hs : list l2hop) (set : list addr_node) : list addr_node :=
  fold_left (fun set h => if ok h then add_addr (l2_addr h) 0 set else set) hs set.
Definition flood_n2 (i : Z) (n1 : list n1_node) : option (list addr_node) :=
  fold_left (fun acc x =>
    match acc, n1_link x with
    | Some set, Some l => Some (add_2hops (fun h => (ml_if l =? i) && (l2_out h <=? METRIC_MAX)) (ml_2hop l) set)
    | _, _ => None
    end) n1 (Some []).

(** One round of _cb_update_flooding_mpr (mpr.c:190-210) for one interface:
    which links of this interface have neigh_is_flooding_mpr
    (_update_nhdp_flooding, mpr.c:161-171).  _calculate_n1 has cleared all
    selection_is_mpr. *)
Definition find_mpr (a : Z) (set : list n1_node) : bool := existsb (fun x => n1_addr x =? a) set.
Definition empty_graph : gstate := GState [] [] [] [].
Definition flooding_mprs (i : Z) (db : list link) : option (list link) :=
  let n1 := flood_n1 i db in
  match flood_n2 i n1 with
  | None => None
  | Some n2 =>
    match (g <- mpr_calculate flooding n1 n2; validate flooding (fst g) (snd g)) empty_graph with
    | None => None
    | Some (_, s) => Some (filter (fun l => (ml_if l =? i) && find_mpr (mn_orig (ml_neigh l)) (g_mpr s)) db)
    end
  end.

(** ** The graph for routing MPRs (neighbor-graph-routing.c) *)

(** _is_reachable_neighbor_tuple, _is_allowed_neighbor_tuple (92-112) *)
Definition allowed_neigh (n : neigh) : bool :=
  (mn_in n <=? METRIC_MAX) && (mn_sym n >? 0) && (mn_will n >? WILL_NEVER).
(** _calculate_d1_x (133-139), _calculate_d2_x_y (148-163): the first link
    with the address decides; _calculate_d1_of_y (204-219),
    _get_willingness_n1 (311-317) *)
Definition route_d1 (x : n1_node) : option Z := Some (mn_in (n1_neigh x)).
Fixpoint first_2hop (y : Z) (ls : list (list l2hop)) : option l2hop :=
  match ls with
  | [] => None
  | hs :: ls' => match find_2hop y hs with Some h => Some h | None => first_2hop y ls' end
  end.
Definition route_d2 (x : n1_node) (y : Z) : option Z :=
  Some (match first_2hop y (mn_l2 (n1_neigh x)) with Some h => l2_in h | None => METRIC_INFINITE end).
Definition route_d1_y (n1 : list n1_node) (y : Z) : option Z :=
  Some (match find (fun x => existsb (Z.eqb y) (mn_addrs (n1_neigh x))) n1 with
        | Some x => mn_in (n1_neigh x)
        | None => METRIC_INFINITE
        end).
Definition route_will (x : n1_node) : option Z := Some (mn_will (n1_neigh x)).
Definition routing : methods := Meth route_d1_y route_d1 route_d2 route_will.

(** _calculate_n1 (242-262): the link is NULL; _is_allowed_2hop_tuple
    (120-125), _calculate_n2 (264-303) *)
Definition route_n1 (db : list neigh) : list n1_node :=
  fold_left (fun set n => if allowed_neigh n then add_n1 n None 0 set else set) db [].
Definition route_n2 (n1 : list n1_node) : list addr_node :=
  fold_left (fun set x =>
    fold_left (fun set hs => add_2hops (fun h => l2_in h <=? METRIC_MAX) hs set) (mn_l2 (n1_neigh x)) set) n1 [].

(** _cb_update_routing_mpr (mpr.c:215-234): the neighbors with neigh_is_mpr.
    _update_nhdp_routing (mpr.c:141-154) walks over all links; every neighbor
    has one. *)
Definition routing_mprs (db : list neigh) : option (list neigh) :=
  let n1 := route_n1 db in
  match (g <- mpr_calculate routing n1 (route_n2 n1); validate routing (fst g) (snd g)) empty_graph with
  | None => None
  | Some (_, s) => Some (filter (fun n => find_mpr (mn_orig n) (g_mpr s)) db)
  end.
